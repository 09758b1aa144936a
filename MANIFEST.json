{
 "claims": [
  {
   "property": "C01",
   "status": "proved",
   "theorems": [
    "C01_wire_round_trip",
    "C01_wire_stream",
    "C01_many_keys_rejected",
    "C01_many_keys_refuted"
   ],
   "note": "",
   "witnesses": [
    "C01_hypotheses_met"
   ]
  },
  {
   "property": "C02",
   "status": "proved",
   "theorems": [
    "C02_truncation_rejected"
   ],
   "note": "",
   "witnesses": [
    "C02_hypotheses_met"
   ]
  },
  {
   "property": "C03",
   "status": "proved",
   "theorems": [
    "C03_file_round_trip",
    "C03_letter_unchanged_on_success",
    "C03_failure_loses_data",
    "C03_letter_unchanged_refuted"
   ],
   "note": "The JSON header codec is a parameter assumed to give back what it wrote.",
   "witnesses": [
    "C03_hypotheses_met"
   ]
  },
  {
   "property": "C04",
   "status": "proved",
   "theorems": [
    "C04_associated_data_binds_header",
    "C04_associated_data_binds_header_refuted"
   ],
   "note": "",
   "witnesses": [
    "C04_hypotheses_met"
   ]
  },
  {
   "property": "C05",
   "status": "proved",
   "theorems": [
    "C05_apply_keys_never_authenticated",
    "C05_apply_keys_not_authenticated_refuted",
    "C05_flag_without_effect",
    "C05_flag_not_verified",
    "C05_flipped_flag_ends_the_session"
   ],
   "note": "",
   "witnesses": [
    "C05_not_waiting_met",
    "C05_hypotheses_met"
   ]
  },
  {
   "property": "C06",
   "status": "proved",
   "theorems": [
    "C06_same_length",
    "C06_signature_moves_to_other_content_refuted"
   ],
   "note": "",
   "witnesses": [
    "C06_hypotheses_met"
   ]
  },
  {
   "property": "C07",
   "status": "proved",
   "theorems": [
    "C07_guarantees_delivered",
    "C07_key_derivation",
    "C07_no_signet_unused",
    "C07_unused_recipient_refuted"
   ],
   "note": "",
   "witnesses": [
    "C07_hypotheses_met"
   ]
  },
  {
   "property": "C08",
   "status": "proved",
   "theorems": [
    "C08_level_floor",
    "C08_level_attained",
    "C08_empty_key_refuted"
   ],
   "note": "",
   "witnesses": [
    "C08_floor_is_enforced"
   ]
  },
  {
   "property": "C09",
   "status": "proved",
   "theorems": [
    "C09_round_trip",
    "C09_registered_round_trip"
   ],
   "note": "C09_round_trip: any suite with distinct tools whose letter carries a seal for every secret and recipient (C17 shows why that clause is needed); C09_registered_round_trip drops it for every registered suite and allows any history on both sides.",
   "witnesses": [
    "C09_hypotheses_met",
    "C09_counterpart_met"
   ]
  },
  {
   "property": "C10",
   "status": "proved",
   "theorems": [
    "C10_accepted_by_every_tool",
    "C10_aead_integrity",
    "C10_mac_integrity",
    "C10_data_is_honest"
   ],
   "note": "Unforgeability of the primitives is not assumed: the theorems exhibit the exact query each tool accepted.",
   "witnesses": [
    "C10_hypotheses_met"
   ]
  },
  {
   "property": "C11",
   "status": "proved",
   "theorems": [
    "C11_letter_signatures_trusted",
    "C11_open_checks_every_sender",
    "C11_verify_checks_every_sender",
    "C11_signatures_in_order"
   ],
   "note": "C11_letter_signatures_trusted is the property itself, for Letter.Open/Verify with a trust store; the others are the session level: every sender of the session has a signature in the letter that its key verifies over the canonical message.",
   "witnesses": [
    "C11_letter_hypotheses_met",
    "C11_hypotheses_met"
   ]
  },
  {
   "property": "C12",
   "status": "proved",
   "theorems": [
    "C12_complete_letter_never_crashes",
    "C12_null_seal_crashes_refuted",
    "C12_other_letter_refuted"
   ],
   "note": "",
   "witnesses": [
    "C12_hypotheses_met"
   ]
  },
  {
   "property": "C13",
   "status": "proved",
   "theorems": [
    "C13_unknown_version_or_suite_rejected",
    "C13_wire_version_refuted"
   ],
   "note": "",
   "witnesses": [
    "C13_hypotheses_met"
   ]
  },
  {
   "property": "C14",
   "status": "proved",
   "theorems": [
    "C14_history_independent",
    "C14_open_history_independent"
   ],
   "note": "After any history of Close/Open/Verify calls on a non-wire session (successful or failed), the next call gives what it gives on a fresh session with the same randomness.",
   "witnesses": [
    "C14_hypotheses_met"
   ]
  },
  {
   "property": "C15",
   "status": "proved",
   "theorems": [
    "C15_verify_leaves_letter",
    "C15_open_without_ciphers_leaves_letter",
    "C15_bad_signature_leaves_letter",
    "C15_reopen",
    "C15_opened_in_place",
    "C15_registered_after_open",
    "C15_open_destroys_letter_refuted"
   ],
   "note": "After a failed authentication Go's AEADs zero the output; the model has that (Core.aead_open).",
   "witnesses": [
    "C15_after_open_met",
    "C15_hypotheses_met"
   ]
  },
  {
   "property": "C16",
   "status": "proved",
   "theorems": [
    "C16_data_untouched",
    "C16_registered_data_untouched",
    "C16_data_overwritten_refuted"
   ],
   "note": "",
   "witnesses": [
    "C16_hypotheses_met"
   ]
  },
  {
   "property": "C17",
   "status": "proved",
   "theorems": [
    "C17_nobody_left_out",
    "C17_registered_nobody_left_out",
    "C17_error_lost_refuted"
   ],
   "note": "",
   "witnesses": [
    "C17_hypotheses_met"
   ]
  },
  {
   "property": "C18",
   "status": "proved",
   "theorems": [
    "C18_right_question",
    "C18_asked_by_name",
    "C18_create_while_opening_refuted"
   ],
   "note": "",
   "witnesses": [
    "C18_hypotheses_met",
    "C18_asked_by_name_met"
   ]
  },
  {
   "property": "C19",
   "status": "proved",
   "theorems": [
    "C19_wire_agreement",
    "C19_registered_wire_agreement",
    "C19_wire_never_stuck"
   ],
   "note": "Any interleaving of sends and FIFO deliveries, any length; for suites with at most one key exchange and one key encapsulation tool (all registered ones). Recipients of a key encapsulation tool must have an ID: without one the code misreads the handshake. While the primitives work (SpecWorking) and the configured minimum key size is at most 7000 bytes (HKDF delivers no more), both sides can always send.",
   "witnesses": [
    "C19_hypotheses_met"
   ]
  },
  {
   "property": "C20",
   "status": "proved",
   "theorems": [
    "C20_rekeying_refuted",
    "C20_keys_only_once"
   ],
   "note": "",
   "witnesses": [
    "C19_hypotheses_met"
   ]
  },
  {
   "property": "C21",
   "status": "proved",
   "theorems": [
    "C21_garbage_refuted",
    "C21_nonceless_ignored",
    "C21_damage_only_loses_itself",
    "C21_registered_damage_only_loses_itself"
   ],
   "note": "The last sentence of the statement is the refutation; damage is proved for whole histories with any number of damaged letters in both directions.",
   "witnesses": [
    "C21_damage_met",
    "C19_hypotheses_met"
   ]
  },
  {
   "property": "C22",
   "status": "proved",
   "theorems": [
    "C22_wire_protection",
    "C22_wire_correspondence",
    "C22_letter_wire"
   ],
   "note": "",
   "witnesses": [
    "C22_wire_suite",
    "C22_starts_met"
   ]
  },
  {
   "property": "C23",
   "status": "proved",
   "theorems": [
    "C23_init_iff",
    "C23_keys_do_not_overlap",
    "C23_same_material_same_keys"
   ],
   "note": "The first piece of key material has to be non-empty: that is what the code checks.",
   "witnesses": [
    "C23_first_empty_refused",
    "C23_hypotheses_met"
   ]
  },
  {
   "property": "C24",
   "status": "proved",
   "theorems": [
    "C24_requirements_are_sets",
    "C24_error_names_what_is_missing",
    "C24_report_iff",
    "C24_text_is_unambiguous",
    "C24_unknown_attribute_unnamed_refuted"
   ],
   "note": "",
   "witnesses": [
    "C24_report_witness",
    "C24_witness"
   ]
  },
  {
   "property": "C25",
   "status": "proved",
   "theorems": [
    "C25_parse_no_spec",
    "C25_no_spec_round_trip",
    "C25_no_spec_canonical",
    "C25_short_string"
   ],
   "note": "",
   "witnesses": [
    "C25_witness"
   ]
  },
  {
   "property": "C26",
   "status": "proved",
   "theorems": [
    "C26_round_trip",
    "C26_public",
    "C26_no_crash",
    "C26_x25519_exact",
    "C26_ed25519_exact",
    "C26_injective"
   ],
   "note": "Curve checks and the PKCS#1 form of RSA keys are parameters.",
   "witnesses": [
    "C26_hypotheses_met"
   ]
  },
  {
   "property": "C27",
   "status": "proved",
   "theorems": [
    "C27_export_exact",
    "C27_private_key_irrelevant",
    "C27_recipient",
    "C27_secrets"
   ],
   "note": "The CBOR codec is a parameter (no law needed).",
   "witnesses": [
    "C27_hypotheses_met"
   ]
  },
  {
   "property": "C28",
   "status": "proved",
   "theorems": [
    "C28_backup",
    "C28_export_recipient",
    "C28_export_private",
    "C28_envelope",
    "C28_key_refuted",
    "C28_key_backup_lost",
    "C28_no_info_panics",
    "C28_protected_refuted"
   ],
   "note": "The codec is assumed to give back the value it is used on (codec_ok).",
   "witnesses": [
    "C28_hypotheses_met",
    "C28_generated_panics",
    "C28_key_refuted_met"
   ]
  },
  {
   "property": "C29",
   "status": "proved",
   "theorems": [
    "C29_export_exact",
    "C29_keys_irrelevant",
    "C29_dir_store_exact",
    "C29_dir_store_refuted"
   ],
   "note": "Export/ToBytes write references only; the directory store writes everything.",
   "witnesses": [
    "C29_hypotheses_met"
   ]
  },
  {
   "property": "C30",
   "status": "proved",
   "theorems": [
    "C30_strong_enough",
    "C30_monotone",
    "C30_shortest",
    "C30_above_256_refuted"
   ],
   "note": "",
   "witnesses": []
  },
  {
   "property": "C31",
   "status": "proved",
   "theorems": [
    "C31_map"
   ],
   "note": "Refinement of a map for all call sequences.",
   "witnesses": [
    "C31_hypotheses_met"
   ]
  },
  {
   "property": "C32",
   "status": "proved",
   "theorems": [
    "C32_mem_exact",
    "C32_mem_refuted",
    "C50_select_exact"
   ],
   "note": "Exact results of both stores for every order of iteration.",
   "witnesses": [
    "C50_hypotheses_met",
    "C32_hypotheses_met"
   ]
  },
  {
   "property": "C33",
   "status": "proved",
   "theorems": [
    "C33_reads_inside",
    "C33_writes_inside",
    "C33_distinct_files",
    "C33_refused"
   ],
   "note": "filepath.Join/Clean modelled on byte strings.",
   "witnesses": [
    "C33_hypotheses_met"
   ]
  },
  {
   "property": "C34",
   "status": "proved",
   "theorems": [
    "C34_round_trip",
    "C34_made_well_formed",
    "C34_load_exact",
    "C34_rejects",
    "C34_noncanonical_accepted"
   ],
   "note": "Also shown: Load accepts padded (non-minimal) numbers, so two byte strings can load as the same hash. The digest functions are a parameter with only the length law.",
   "witnesses": [
    "C34_hypotheses_met"
   ]
  },
  {
   "property": "C35",
   "status": "proved",
   "theorems": [
    "C35_text_round_trip",
    "C35_text_alphabets",
    "C35_line_breaks",
    "C35_foreign_characters"
   ],
   "note": "hex, base64 and base58 are modelled concretely (third-party packages, see trusted base).",
   "witnesses": [
    "C35_line_breaks_met",
    "C35_hypotheses_met"
   ]
  },
  {
   "property": "C36",
   "status": "proved",
   "theorems": [
    "C36_equal",
    "C36_equal_bytes",
    "C36_matches",
    "C36_matches_own",
    "C36_matches_collision",
    "C36_equal_raw"
   ],
   "note": "",
   "witnesses": [
    "C36_hypotheses_met"
   ]
  },
  {
   "property": "C37",
   "status": "proved",
   "theorems": [
    "C37_parse_exact",
    "C37_round_trip",
    "C37_section_shape"
   ],
   "note": "The CBOR codec of letters is a parameter assumed to restore a letter. Text before a section must be complete lines without a begin line (otherwise see C38_open_begin_line_refuted).",
   "witnesses": [
    "C37_hypotheses_met"
   ]
  },
  {
   "property": "C38",
   "status": "proved",
   "theorems": [
    "C38_add",
    "C38_replace",
    "C38_replace_lines",
    "C38_open_begin_line_refuted"
   ],
   "note": "",
   "witnesses": [
    "C38_hypotheses_met"
   ]
  },
  {
   "property": "C39",
   "status": "proved",
   "theorems": [
    "C39_verify_exact",
    "C39_verify_complete",
    "C39_nothing_to_verify",
    "C39_signers_trusted",
    "C39_stdin_refuted"
   ],
   "note": "The hash function and the codecs of letters and file data are parameters.",
   "witnesses": [
    "C39_hypotheses_met"
   ]
  },
  {
   "property": "C40",
   "status": "proved",
   "theorems": [
    "C40_add_then_verify",
    "C40_add_total",
    "C40_yaml",
    "C40_refuted"
   ],
   "note": "",
   "witnesses": [
    "C40_hypotheses_met"
   ]
  },
  {
   "property": "C41",
   "status": "proved",
   "theorems": [
    "C41_verify_exact",
    "C41_errors",
    "C41_same_checksum",
    "C41_yaml"
   ],
   "note": "",
   "witnesses": [
    "C41_hypotheses_met"
   ]
  },
  {
   "property": "C42",
   "status": "proved",
   "theorems": [
    "C42_bounded_queue",
    "C42_once_in_order",
    "C42_overflow_refuted"
   ],
   "note": "The overflow the condition excludes is shown by C42_overflow_refuted.",
   "witnesses": [
    "C42_hypotheses_met"
   ]
  },
  {
   "property": "C43",
   "status": "proved",
   "theorems": [
    "C43_no_double",
    "C43_orphan_refuted"
   ],
   "note": "Steps are the sections under a lock; C43_orphan_refuted is the reachable loss of signets.",
   "witnesses": [
    "C43_hypotheses_met"
   ]
  },
  {
   "property": "C44",
   "status": "proved",
   "theorems": [
    "C44_exact",
    "C44_accepted",
    "C44_rules_enforced",
    "C44_monotone",
    "C44_overflow_refuted",
    "C44_longer_refuted",
    "C44_other_chars_refuted",
    "C44_hypotheses_met"
   ],
   "note": "Floating point arithmetic is a parameter; monotonicity and overflow are stated as laws of it and shown consistent by an instance.",
   "witnesses": []
  },
  {
   "property": "C45",
   "status": "proved",
   "theorems": [
    "C45_success",
    "C45_ok_lines",
    "C45_complete",
    "C45_stdin_refuted",
    "C45_declined_refuted",
    "C45_missing_refuted",
    "C45_shadowed_refuted",
    "C45_nameless_signer_refuted"
   ],
   "note": "Globbing, stat and directory walks are parameters; each exception has a concrete run.",
   "witnesses": [
    "C45_hypotheses_met"
   ]
  },
  {
   "property": "C46",
   "status": "proved",
   "theorems": [
    "C46_export_recipient",
    "C46_export_signet",
    "C46_export_envelope",
    "C46_import_backup",
    "C46_secrets",
    "C46_backup_refuted"
   ],
   "note": "",
   "witnesses": [
    "C46_hypotheses_met"
   ]
  },
  {
   "property": "C47",
   "status": "proved",
   "theorems": [
    "C47_registry_well_formed",
    "C47_suites_open",
    "C47_declared_is_delivered",
    "C47_honest_levels",
    "C47_hash_label_refuted"
   ],
   "note": "the refuted theorem records a mislabelled hash tool (BLAKE2s-256), which no registered suite uses",
   "witnesses": [
    "C47_honest_levels_met",
    "C47_hypotheses_met"
   ]
  },
  {
   "property": "C48",
   "status": "proved",
   "theorems": [
    "C48_parse_exact",
    "C48_documented",
    "C48_resolve_exact",
    "C48_never_panics",
    "C48_new_session",
    "C48_sloppy_refuted",
    "C48_duplicates_refuted"
   ],
   "note": "",
   "witnesses": [
    "C48_hypotheses_met"
   ]
  },
  {
   "property": "C49",
   "status": "proved",
   "theorems": [
    "C49_verify_exact",
    "C49_add_then_verify",
    "C49_order_irrelevant",
    "C49_same_checksum",
    "C49_signatures_exact",
    "C49_add_signature",
    "C49_duplicate_keys_refuted"
   ],
   "note": "For objects without duplicate keys; with duplicate metadata keys the claim fails (C49_duplicate_keys_refuted). The JSON packages are third party: their behaviour is assumed as described in Json.v.",
   "witnesses": [
    "C49_hypotheses_met"
   ]
  },
  {
   "property": "C50",
   "status": "proved",
   "theorems": [
    "C50_select_exact",
    "C50_envelopes_exact",
    "C50_refuted",
    "C50_unknown_suite_refuted"
   ],
   "note": "Exact condition for listings to succeed.",
   "witnesses": [
    "C50_hypotheses_met"
   ]
  },
  {
   "property": "C51",
   "status": "proved",
   "theorems": [
    "C51_never_stuck",
    "C51_all_return"
   ],
   "note": "",
   "witnesses": [
    "C51_hypotheses_met"
   ]
  },
  {
   "property": "C52",
   "status": "proved",
   "theorems": [
    "C52_dir_map",
    "C52_unstored_key_lost"
   ],
   "note": "Refinement of a map; the serialisation is a parameter assumed to give back what the history stores.",
   "witnesses": [
    "C52_hypotheses_met"
   ]
  },
  {
   "property": "C53",
   "status": "proved",
   "theorems": [
    "C53_others_unharmed",
    "C53_entry_lost_refuted"
   ],
   "note": "os.WriteFile modelled as truncate plus a prefix of the data.",
   "witnesses": []
  },
  {
   "property": "C54",
   "status": "proved",
   "theorems": [
    "C54_open",
    "C54_verify",
    "C54_file",
    "C54_mixed_refuted",
    "C54_level_refuted"
   ],
   "note": "End to end: close with one trust store, Letter.Open and Letter.Verify with another, every registered suite (C54_hypotheses_met runs all of them).",
   "witnesses": [
    "C54_hypotheses_met"
   ]
  },
  {
   "property": "C55",
   "status": "proved",
   "theorems": [
    "C55_sign_then_verify",
    "C55_sign_exact",
    "C55_labels",
    "C55_encrypting_suite_refuted"
   ],
   "note": "",
   "witnesses": [
    "C55_hypotheses_met"
   ]
  },
  {
   "property": "C56",
   "status": "proved",
   "theorems": [
    "C56_sign_then_verify",
    "C56_encrypting_suite_refuted"
   ],
   "note": "",
   "witnesses": [
    "C56_hypotheses_met"
   ]
  },
  {
   "property": "C57",
   "status": "proved",
   "theorems": [
    "C57_open_any_point",
    "C57_open_success",
    "C57_open_works",
    "C57_declined_refuted",
    "C57_mode_refuted",
    "C57_interrupted_refuted"
   ],
   "note": "The file system is a map from inodes to modes and contents, the names given by an arbitrary function (links); reads during a run see the files as they were at its start.",
   "witnesses": [
    "C57_hypotheses_met"
   ]
  },
  {
   "property": "C58",
   "status": "proved",
   "theorems": [
    "C58_close_any_point",
    "C58_close_success",
    "C58_close_works",
    "C58_close_then_open",
    "C58_stdin_refuted"
   ],
   "note": "The file system is modelled as for C57; the JSON header codec is a parameter assumed to give back what it wrote.",
   "witnesses": [
    "C58_hypotheses_met"
   ]
  },
  {
   "property": "C59",
   "status": "proved",
   "theorems": [
    "C59_verify_text",
    "C59_verify_json",
    "C59_add_any_point",
    "C59_text_add_then_verify",
    "C59_json_add_then_verify",
    "C59_interrupted_refuted"
   ],
   "note": "The file system is modelled as for C57; JSON syntax as for C49.",
   "witnesses": [
    "C59_hypotheses_met",
    "C59_json_hypotheses_met"
   ]
  },
  {
   "property": "C60",
   "status": "proved",
   "theorems": [
    "C60_key_chain",
    "C60_one_time_keys_forgotten",
    "C60_every_run_has_a_log"
   ],
   "note": "The log-carrying conversation relation covers every run of connected sessions (C60_every_run_has_a_log). Key material is symbolic up to the laws of crypto_laws; forgetting means the Go references are dropped (no statement about memory contents).",
   "witnesses": [
    "C60_hypotheses_met"
   ]
  },
  {
   "property": "C61",
   "status": "proved",
   "theorems": [
    "C61_maps",
    "C61_others_untouched",
    "C61_private_back",
    "C61_recipient_back",
    "C61_secrets_refuted",
    "C61_no_key_refuted",
    "C61_envelope_no_keys"
   ],
   "note": "The keyring (go-keyring) is an association list of (service, user) with an arbitrary fault per access; the CBOR codec is a parameter assumed to give back what it encoded.",
   "witnesses": [
    "C61_hypotheses_met",
    "C61_secrets_refuted_met"
   ]
  },
  {
   "property": "C62",
   "status": "proved",
   "theorems": [
    "C62_effects",
    "C62_usable",
    "C62_known",
    "C62_no_panic",
    "C62_unsaved",
    "C62_other_name_refuted",
    "C62_carried_key_refuted"
   ],
   "note": "The prompts (package survey) are an arbitrary list of answers, so the theorems cover more than the lines shown; the JSON and CBOR codecs and the directory walk are parameters; no_panic assumes that loading a key does not panic.",
   "witnesses": [
    "C62_hypotheses_met"
   ]
  },
  {
   "property": "C63",
   "status": "proved",
   "theorems": [
    "C63_signet_deleted",
    "C63_back",
    "C63_done",
    "C63_signets_effects",
    "C63_enough_fuel",
    "C63_envelope_chosen",
    "C63_envelopes_done",
    "C63_envelopes_effects",
    "C63_envelopes_usable",
    "C63_no_panic",
    "C63_same_id_refuted",
    "C63_space_refuted",
    "C63_done_refuted",
    "C63_subdirectory_refuted",
    "C63_envelope_space_refuted",
    "C63_envelope_done_refuted"
   ],
   "note": "A menu row is its cells, each with at least three spaces of padding (text/tabwriter widths are not tracked); answers are arbitrary lines. usable assumes that the walk lists what can be read and that the envelope codec gives back what it wrote.",
   "witnesses": [
    "C63_hypotheses_met",
    "C63_envelopes_met"
   ]
  },
  {
   "property": "C64",
   "status": "proved",
   "theorems": [
    "C64_uuid",
    "C64_distinct",
    "C64_id",
    "C64_saved",
    "C64_works",
    "C64_failure",
    "C64_textonly_store",
    "C64_textonly",
    "C64_refused",
    "C64_secret_not_printed",
    "C64_no_panic",
    "C64_negative_size_refuted",
    "C64_rsa",
    "C64_rsa_above_256_refuted"
   ],
   "note": "Randomness, key generation (assumed to give pairs of the scheme), the clock, the codecs and whether a write works are parameters; one run on a store that nobody else changes.",
   "witnesses": [
    "C64_hypotheses_met"
   ]
  },
  {
   "property": "C65",
   "status": "proved",
   "theorems": [
    "C65_any_point",
    "C65_success",
    "C65_works",
    "C65_sign_then_verify",
    "C65_interrupted_refuted",
    "C65_stdout_refuted",
    "C65_same_file_refuted"
   ],
   "note": "The file system is modelled as for C57; the codecs of letters and file data are parameters, for the round trip assumed to give back what they wrote. Output longer than stdout takes is cut (fmt.Print's error is ignored).",
   "witnesses": [
    "C65_hypotheses_met"
   ]
  },
  {
   "property": "C66",
   "status": "proved",
   "theorems": [
    "C66_any_order",
    "C66_signers_genuine",
    "C66_verify_file",
    "C66_verify_letter",
    "C66_ok_lines",
    "C66_named_signers",
    "C66_three_signatures_refuted",
    "C66_forged_line_refuted"
   ],
   "note": "",
   "witnesses": [
    "C66_hypotheses_met"
   ]
  },
  {
   "property": "C67",
   "status": "proved",
   "theorems": [
    "C67_start",
    "C67_starts",
    "C67_refused",
    "C67_refuses",
    "C67_verify_asks_nothing",
    "C67_no_panic",
    "C67_open",
    "C67_close",
    "C67_sign",
    "C67_verify",
    "C67_above_128",
    "C67_no_refuted",
    "C67_lowered_refuted",
    "C67_export_refuted"
   ],
   "note": "The environment, stat, whether a keyring works and the contents of the stores are parameters. The part of above_128 about close and sign assumes envelopes that name a suite of jess instead of carrying one (stored envelopes cannot carry one).",
   "witnesses": [
    "C67_hypotheses_met",
    "C67_starts_met"
   ]
  },
  {
   "property": "C68",
   "status": "proved",
   "theorems": [
    "C68_accepted",
    "C68_disclosed",
    "C68_signet",
    "C68_reaches",
    "C68_status_refuted",
    "C68_private_refuted",
    "C68_hypotheses_met"
   ],
   "note": "SHA-1, the lookup service, the answers on the terminal and the arithmetic are parameters; reaches assumes monotone arithmetic and SCRYPT-20, which all password suites use.",
   "witnesses": []
  },
  {
   "property": "C69",
   "status": "proved",
   "theorems": [
    "C69_close",
    "C69_needed",
    "C69_delivered",
    "C69_open_session_refuted"
   ],
   "note": "Primitives in working order (SpecWorking: random numbers, key derivation up to the limit of HKDF, key generation, Ed25519, SCRYPT-20 do not fail) are a hypothesis; nothing is said about RSA, which no suite of jess uses.",
   "witnesses": [
    "C69_hypotheses_met"
   ]
  },
  {
   "property": "C70",
   "status": "proved",
   "theorems": [
    "C70_introduction",
    "C70_letter",
    "C70_story"
   ],
   "note": "Hypotheses: primitives in working order and their functional laws, codecs that give these signets back, and SpecMail.same_tools (the two views of stored keys in the model - bytes in sessions, tool formats in commands - agree). Secrets (keys, passwords) cannot be exchanged by export (C46_secrets).",
   "witnesses": [
    "C70_hypotheses_met"
   ]
  },
  {
   "property": "C71",
   "status": "proved",
   "theorems": [
    "C71_every_key_needed",
    "C71_registered_every_key_needed",
    "C71_letter_keys_held",
    "C71_any_recipient_refuted"
   ],
   "note": "Holding is about the reader's own trust store and answers: no claim that the primitives cannot be broken.",
   "witnesses": [
    "C71_hypotheses_met"
   ]
  },
  {
   "property": "C72",
   "status": "proved",
   "theorems": [
    "C72_loaded_store_is_shared_safely",
    "C72_concurrent_open",
    "C72_only_private_keys_missing",
    "C72_concurrent_verify",
    "C72_goroutines_end",
    "C72_concurrent_open_refuted"
   ],
   "note": "The refuted theorem is a schedule in which Letter.Open crashes because another goroutine is between the two assignments of SetLoadedKeys. Nobody stores or deletes signets meanwhile; each key is read once when the session is made.",
   "witnesses": [
    "C72_hypotheses_met"
   ]
  },
  {
   "property": "C73",
   "status": "proved",
   "theorems": [
    "C73_exclusive",
    "C73_calls_return",
    "C73_mem_linearizable",
    "C73_dir_linearizable",
    "C73_dir_map",
    "C73_two_stores_refuted"
   ],
   "note": "A file is read in one access and written byte by byte; the mutex is taken as correct. The refuted theorem is a run with two stores on one directory.",
   "witnesses": [
    "C73_mem_met",
    "C73_dir_met"
   ]
  },
  {
   "property": "C74",
   "status": "proved",
   "theorems": [
    "C74_cover",
    "C74_sealed",
    "C74_in_clear",
    "C74_conversation"
   ],
   "note": "Pairs of runs with the same random numbers. Signing may fail depending on the data, so for suites with signatures the conversations are those in which closing succeeds. Sizes are not hidden and not claimed to be.",
   "witnesses": [
    "C74_hypotheses_met"
   ]
  },
  {
   "property": "C75",
   "status": "proved",
   "theorems": [
    "C75_overwritten",
    "C75_always_overwritten",
    "C75_secret_gone_refuted"
   ],
   "note": "Wire sessions and failing primitives: only requests that came to an end (a setup that fails midway leaves keys). The model knows the slices the tools hold; copies made by the Go runtime or inside the primitives (the README calls Burn ineffective) are not modelled.",
   "witnesses": [
    "C75_hypotheses_met"
   ]
  },
  {
   "property": "C76",
   "status": "proved",
   "theorems": [
    "C76_one_line_per_row",
    "C76_line_of_row",
    "C76_chosen_is_shown",
    "C76_lines_begin_with_names",
    "C76_list",
    "C76_list_says",
    "C76_cells_are_shown",
    "C76_suite_menu",
    "C76_edit_menu",
    "C76_level_cell",
    "C76_line_feed_refuted",
    "C76_edit_menu_line_feed_refuted"
   ],
   "note": "text/tabwriter and bufio.Scanner are modelled concretely for the parameters jess uses. The signet picked must have an ID of one word that no earlier signet has, and a name that does not read as the entry Done.",
   "witnesses": [
    "C76_hypotheses_met"
   ]
  },
  {
   "property": "C77",
   "status": "proved",
   "theorems": [
    "C77_registers_total",
    "C77_get_is_latest",
    "C77_list_in_order",
    "C77_get_agrees_with_list",
    "C77_order_of_registration",
    "C77_suites",
    "C77_registries",
    "C77_replaced_is_listed_refuted"
   ],
   "note": "sort.Sort is modelled as any sorted permutation. Reading a registry while registering is not modelled (Register may only be called in init functions).",
   "witnesses": [
    "C77_hypotheses_met"
   ]
  },
  {
   "property": "C78",
   "status": "proved",
   "theorems": [
    "C78_accepted_with_the_chain_key",
    "C78_later_letters_use_later_keys",
    "C78_loss_and_repeat_refuted"
   ],
   "note": "Over every history of closes, opens (of any letters) and verifies of one wire session. That the tools refuse a letter under another key is their own (cryptographic) property; the refutation shows that a lost or repeated letter makes the following genuine ones unreadable.",
   "witnesses": [
    "C78_hypotheses_met"
   ]
  },
  {
   "property": "C79",
   "status": "proved",
   "theorems": [
    "C79_what_random_returns",
    "C79_first_one_wins",
    "C79_settled_for_good",
    "C79_overlapping_calls_refuted",
    "C79_random_bytes",
    "C79_random_bytes_panics",
    "C79_short_reads_refuted"
   ],
   "note": "Sequentially consistent memory; the assignment of the reader is taken to be atomic (in Go it is not synchronised: overlapping calls are a data race, which can only behave worse than the model).",
   "witnesses": [
    "C79_hypotheses_met"
   ]
  },
  {
   "property": "C80",
   "status": "proved",
   "theorems": [
    "C80_same_for_every_session",
    "C80_beginning_opens_again",
    "C80_whatever_is_answered",
    "C80_replay_ends_with_the_servers_keys"
   ],
   "note": "The last sentence is an execution (toy primitives): that another key is refused is a cryptographic property of the tools.",
   "witnesses": []
  }
 ]
}