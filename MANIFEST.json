{
 "claims": [
  {
   "property": "C01",
   "status": "proved",
   "theorems": [
    "C01_filters_honoured",
    "C01_end_to_end",
    "C01_scored_texts",
    "C01_single_class_ignores_filter",
    "C01_no_null_class_ignores_filter",
    "C01_filters_refuted",
    "C01_deterministic_parser",
    "C01_lookup_parser"
   ],
   "note": "End to end for engines of library parsers whose classifiers have at least two classes including the null class; the two failing situations are proved as general facts and refuted on a concrete engine."
  },
  {
   "property": "C02",
   "status": "proved",
   "theorems": [
    "C02_unknown_names_rejected",
    "C02_known_names_accepted"
   ],
   "note": ""
  },
  {
   "property": "C03",
   "status": "proved",
   "theorems": [
    "C03_effective_filter",
    "C03_same_filters"
   ],
   "note": ""
  },
  {
   "property": "C04",
   "status": "proved",
   "theorems": [
    "C04_answer_of_first_match",
    "C04_first_match_wins",
    "C04_no_match",
    "C04_reached_failure"
   ],
   "note": ""
  },
  {
   "property": "C05",
   "status": "proved",
   "theorems": [
    "C05_parse_is_zero_alternatives",
    "C05_main_answer_unchanged",
    "C05_alternatives_bounds",
    "C05_alternatives_are",
    "C05_alternatives_can_fail_refuted"
   ],
   "note": "Includes a finding: asking for alternatives can turn a successful parse into an error."
  },
  {
   "property": "C06",
   "status": "proved",
   "theorems": [
    "C06_main_duplicated_iff",
    "C06_no_duplicate_refuted"
   ],
   "note": "Characterisation of when the main intent is repeated among the alternatives, and a witness that it happens."
  },
  {
   "property": "C07",
   "status": "proved",
   "theorems": [
    "C07_each_intent_once_best_first",
    "C07_best_score",
    "C07_hash_order"
   ],
   "note": ""
  },
  {
   "property": "C08",
   "status": "proved",
   "theorems": [
    "C08_get_slots_answer",
    "C08_get_slots_is_zero_alternatives",
    "C08_first_parser_with_slots",
    "C08_no_slots",
    "C08_reached_failure"
   ],
   "note": ""
  },
  {
   "property": "C09",
   "status": "proved",
   "theorems": [
    "C09_slots_not_altered"
   ],
   "note": ""
  },
  {
   "property": "C10",
   "status": "proved",
   "theorems": [
    "C10_extensible_slots_kept",
    "C10_custom_slots"
   ],
   "note": ""
  },
  {
   "property": "C11",
   "status": "proved",
   "theorems": [
    "C11_extract_slot"
   ],
   "note": ""
  },
  {
   "property": "C12",
   "status": "proved",
   "theorems": [
    "C12_entities_resolution",
    "C12_entities_isolated_kept",
    "C12_entities_idempotent",
    "C12_slots_resolution",
    "C12_slots_isolated_kept",
    "C12_slots_idempotent"
   ],
   "note": ""
  },
  {
   "property": "C13",
   "status": "proved",
   "theorems": [
    "C13_replacement",
    "C13_mapping_designates_placeholders"
   ],
   "note": ""
  },
  {
   "property": "C14",
   "status": "proved",
   "theorems": [
    "C14_long_texts",
    "C14_long_texts_refuted"
   ],
   "note": ""
  },
  {
   "property": "C15",
   "status": "proved",
   "theorems": [
    "C15_placeholder_to_entity",
    "C15_outside_placeholders",
    "C15_order_independent"
   ],
   "note": ""
  },
  {
   "property": "C16",
   "status": "proved",
   "theorems": [
    "C16_slots_declared_and_disjoint",
    "C16_slots_inside_text"
   ],
   "note": ""
  },
  {
   "property": "C17",
   "status": "proved",
   "theorems": [
    "C17_deterministic_scores",
    "C17_lookup_scores"
   ],
   "note": ""
  },
  {
   "property": "C18",
   "status": "proved",
   "theorems": [
    "C18_deterministic_answer",
    "C18_lookup_answer",
    "C18_ambiguity"
   ],
   "note": ""
  },
  {
   "property": "C19",
   "status": "proved",
   "theorems": [
    "C19_deterministic_two_matches",
    "C19_lookup_two_matches",
    "C19_order_independence_refuted"
   ],
   "note": ""
  },
  {
   "property": "C20",
   "status": "proved",
   "theorems": [
    "C20_deterministic_intents",
    "C20_lookup_intents"
   ],
   "note": ""
  },
  {
   "property": "C21",
   "status": "proved",
   "theorems": [
    "C21_deterministic_certain",
    "C21_lookup_certain",
    "C21_deterministic_slots",
    "C21_deterministic_agrees_with_parse",
    "C21_lookup_slots"
   ],
   "note": ""
  },
  {
   "property": "C22",
   "status": "proved",
   "theorems": [
    "C22_stop_words_blanked",
    "C22_stop_words_of_intent"
   ],
   "note": ""
  },
  {
   "property": "C23",
   "status": "proved",
   "theorems": [
    "C23_all_sublists",
    "C23_each_once",
    "C23_empty_then_larger_first"
   ],
   "note": ""
  },
  {
   "property": "C24",
   "status": "proved",
   "theorems": [
    "C24_slots_are_detected_entities"
   ],
   "note": ""
  },
  {
   "property": "C25",
   "status": "proved",
   "theorems": [
    "C25_no_crash",
    "C25_crash_iff_bad_entry"
   ],
   "note": ""
  },
  {
   "property": "C26",
   "status": "proved",
   "theorems": [
    "C26_tags_partition",
    "C26_any_tags",
    "C26_foreign_tags_refuted"
   ],
   "note": ""
  },
  {
   "property": "C27",
   "status": "proved",
   "theorems": [
    "C27_round_trip",
    "C27_io_adjacent_refuted"
   ],
   "note": ""
  },
  {
   "property": "C28",
   "status": "proved",
   "theorems": [
    "C28_slots_are_slices",
    "C28_undeclared_slot",
    "C28_no_panic",
    "C28_slot_filler"
   ],
   "note": ""
  },
  {
   "property": "C29",
   "status": "proved",
   "theorems": [
    "C29_round_trip",
    "C29_injective",
    "C29_ascii"
   ],
   "note": ""
  },
  {
   "property": "C30",
   "status": "proved",
   "theorems": [
    "C30_no_tagger",
    "C30_unknown_tags",
    "C30_no_label_panics",
    "C30_poisoned_fails"
   ],
   "note": ""
  },
  {
   "property": "C31",
   "status": "proved",
   "theorems": [
    "C31_cache_invisible",
    "C31_error_not_stored"
   ],
   "note": ""
  },
  {
   "property": "C32",
   "status": "proved",
   "theorems": [
    "C32_cache_contents",
    "C32_hit_does_not_call",
    "C32_miss_calls"
   ],
   "note": ""
  },
  {
   "property": "C33",
   "status": "proved",
   "theorems": [
    "C33_linearizable",
    "C33_answers",
    "C33_mutual_exclusion",
    "C33_no_deadlock",
    "C33_steps_bounded"
   ],
   "note": ""
  },
  {
   "property": "C34",
   "status": "proved",
   "theorems": [
    "C34_panic_poisons",
    "C34_only_a_panic_poisons"
   ],
   "note": ""
  },
  {
   "property": "C35",
   "status": "proved",
   "theorems": [
    "C35_ranges_moved",
    "C35_in_bounds",
    "C35_joined_character",
    "C35_joined_positions"
   ],
   "note": ""
  },
  {
   "property": "C36",
   "status": "proved",
   "theorems": [
    "C36_ranges_in_user_text",
    "C36_custom_parser",
    "C36_shifted_refuted"
   ],
   "note": "The theorem with the suffix _refuted is the finding: ranges after U+0130 are shifted."
  },
  {
   "property": "C37",
   "status": "proved",
   "theorems": [
    "C37_prefix",
    "C37_suffix"
   ],
   "note": ""
  },
  {
   "property": "C38",
   "status": "proved",
   "theorems": [
    "C38_rebuilt",
    "C38_rebuilt_text",
    "C38_panics",
    "C38_transformed"
   ],
   "note": ""
  },
  {
   "property": "C39",
   "status": "proved",
   "theorems": [
    "C39_offsets",
    "C39_slot_filler",
    "C39_total",
    "C39_keys_differ",
    "C39_keys_collide_refuted"
   ],
   "note": ""
  },
  {
   "property": "C40",
   "status": "proved",
   "theorems": [
    "C40_one_table",
    "C40_last_declared",
    "C40_not_declared",
    "C40_printed_as_in_the_file",
    "C40_loading",
    "C40_printed_as_in_the_file_refuted"
   ],
   "note": "The theorem with the suffix _refuted is the finding: 007 is printed 7, depending on the rows before it."
  },
  {
   "property": "C41",
   "status": "proved",
   "theorems": [
    "C41_stem_of_last_line",
    "C41_stem_unlisted",
    "C41_stems_load",
    "C41_gazetteer",
    "C41_stop_words",
    "C41_listed_words_found_refuted"
   ],
   "note": "The theorem with the suffix _refuted is the finding: a stems file word that is not normalised is never found."
  },
  {
   "property": "C42",
   "status": "proved",
   "theorems": [
    "C42_words",
    "C42_vector",
    "C42_order_independent",
    "C42_no_known_word",
    "C42_empty_vocabulary_panics",
    "C42_model",
    "C42_model_or_error"
   ],
   "note": ""
  },
  {
   "property": "C43",
   "status": "proved",
   "theorems": [
    "C43_text",
    "C43_text_errors",
    "C43_pairs",
    "C43_order_independent",
    "C43_crash_iff",
    "C43_duplicate_pair_panics_refuted",
    "C43_concatenation",
    "C43_model",
    "C43_model_or_error"
   ],
   "note": "The theorem with the suffix _refuted is the finding: a table listing a pair twice crashes."
  },
  {
   "property": "C44",
   "status": "proved",
   "theorems": [
    "C44_classes_ranked",
    "C44_features",
    "C44_no_features",
    "C44_classifier_succeeds",
    "C44_names_once",
    "C44_best_is_first",
    "C44_unscored_texts",
    "C44_shape_errors",
    "C44_scores",
    "C44_scores_in_unit",
    "C44_loading"
   ],
   "note": ""
  },
  {
   "property": "C45",
   "status": "proved",
   "theorems": [
    "C45_parse",
    "C45_get_slots",
    "C45_get_intents",
    "C45_lists_every_class"
   ],
   "note": ""
  },
  {
   "property": "C46",
   "status": "proved",
   "theorems": [
    "C46_unreadable_engine",
    "C46_not_injectable",
    "C46_no_values",
    "C46_checked_before_changes",
    "C46_never_panics",
    "C46_other_version_refused_refuted"
   ],
   "note": "Stated on the list of changes made to the file tree: empty when the metadata cannot be read, an entity has no parser, or the values cannot be prepared. Never panics unless an external call does."
  },
  {
   "property": "C47",
   "status": "proved",
   "theorems": [
    "C47_injected",
    "C47_defaults",
    "C47_rest_unchanged",
    "C47_other_entities",
    "C47_hash_order",
    "C47_succeeds",
    "C47_all_or_nothing_refuted"
   ],
   "note": "Under the contract gaz_ok of the external gazetteer parser (dump then load gives the same parser, calls stay in their directory) and separate directories. C47_all_or_nothing_refuted: a failed injection can be partly applied."
  },
  {
   "property": "C48",
   "status": "proved",
   "theorems": [
    "C48_crash_point",
    "C48_crash_loses_entity",
    "C48_crash_loses_engine",
    "C48_failure_keeps_parser_refuted"
   ],
   "note": "Every prefix of the changes. Findings: the window where a parser is lost exists for every successful injection, cannot be repaired by injecting again and prevents loading; a failed write loses the old parser."
  },
  {
   "property": "C49",
   "status": "proved",
   "theorems": [
    "C49_custom_values",
    "C49_no_stemmer",
    "C49_never_panics"
   ],
   "note": "Exact values for the three usages; duplicates are kept in stems-only usage and for builtin entities (see handed in C47)."
  },
  {
   "property": "C50",
   "status": "proved",
   "theorems": [
    "C50_supported_version_only",
    "C50_other_version",
    "C50_no_version"
   ],
   "note": ""
  },
  {
   "property": "C51",
   "status": "proved",
   "theorems": [
    "C51_stays_below",
    "C51_rest_unchanged",
    "C51_only_entries",
    "C51_returned_directory",
    "C51_extracted",
    "C51_succeeds",
    "C51_panics_only",
    "C51_never_panics_refuted"
   ],
   "note": "Destination given by names (no '..'), existing as a directory; the crate zip is modelled as a list of entries with the sanitized_name of version 0.5; symbolic links are not modelled; failing system calls are the oracle io. Finding: crafted archives make File::create(...).unwrap() panic."
  },
  {
   "property": "C52",
   "status": "proved",
   "theorems": [
    "C52_parse",
    "C52_slots",
    "C52_intents",
    "C52_no_alternatives",
    "C52_json",
    "C52_refused",
    "C52_last_error",
    "C52_created",
    "C52_kept",
    "C52_history",
    "C52_destroyed",
    "C52_undefined_only",
    "C52_null_element",
    "C52_version"
   ],
   "note": "Conversions to C structures and json, the allocator and engine loading are parameters (loading is C50, C59, C61 and C77). The functions that free results and the getter of the last error are in C71, calls from several threads in C79. Null output pointers are not modelled."
  },
  {
   "property": "C53",
   "status": "proved",
   "theorems": [
    "C53_case_ignored",
    "C53_loaded"
   ],
   "note": ""
  },
  {
   "property": "C54",
   "status": "proved",
   "theorems": [
    "C54_filler_never_panics",
    "C54_huge_ngram_panics"
   ],
   "note": ""
  },
  {
   "property": "C55",
   "status": "proved",
   "theorems": [
    "C55_custom_entity",
    "C55_builtin_entity"
   ],
   "note": ""
  },
  {
   "property": "C56",
   "status": "proved",
   "theorems": [
    "C56_ngram",
    "C56_shape_ngram"
   ],
   "note": ""
  },
  {
   "property": "C57",
   "status": "proved",
   "theorems": [
    "C57_values_of_slots",
    "C57_unknown_entity_fails"
   ],
   "note": ""
  },
  {
   "property": "C58",
   "status": "proved",
   "theorems": [
    "C58_gazetteers",
    "C58_clusters",
    "C58_stop_words",
    "C58_stems",
    "C58_distinct_names_refuted"
   ],
   "note": "The theorem with the suffix _refuted is the finding: names that differ only after the last dot share a file."
  },
  {
   "property": "C59",
   "status": "proved",
   "theorems": [
    "C59_only_below",
    "C59_only_below_refuted"
   ],
   "note": "The theorem with the suffix _refuted is the finding: names with .. escape the engine directory."
  },
  {
   "property": "C60",
   "status": "proved",
   "theorems": [
    "C60_loaded_engine_honours_filters"
   ],
   "note": ""
  },
  {
   "property": "C61",
   "status": "proved",
   "theorems": [
    "C61_moved",
    "C61_archived"
   ],
   "note": "External loaders (gazetteer parser, ontology parser, CRF tagger) are assumed to depend only on what is at or below their path; hash orders are taken equal at the same place of the two directories."
  },
  {
   "property": "C62",
   "status": "proved",
   "theorems": [
    "C62_answer",
    "C62_answer_is_learnt",
    "C62_learnt_is_answered",
    "C62_nothing_learnt",
    "C62_slots",
    "C62_always_answers",
    "C62_own_form",
    "C62_filter_agreement_refuted"
   ],
   "note": "Tables where no entry has 2^22 slots (for \"fewest slots\", because of binary32 weights). Refuted part: agreement of filtered and unfiltered answers."
  },
  {
   "property": "C63",
   "status": "proved",
   "theorems": [
    "C63_answer",
    "C63_answer_matches",
    "C63_match_is_answered",
    "C63_no_match",
    "C63_slots"
   ],
   "note": "The regex engine is a function from texts to capture groups; entity parsers and tokenizer respect their contracts; texts below 2^15 characters (C14 shows the limit)."
  },
  {
   "property": "C64",
   "status": "proved",
   "theorems": [
    "C64_answers",
    "C64_crash_iff",
    "C64_intent_without_patterns",
    "C64_loaded_parsers_answer_refuted"
   ],
   "note": "Includes both ways the guarantee fails for models that load."
  },
  {
   "property": "C65",
   "status": "proved",
   "theorems": [
    "C65_parse_quotes",
    "C65_get_slots_quotes"
   ],
   "note": "Taggers in the files answer one tag of their scheme per token (contract of the CRF library on trained models); tokenizer contract."
  },
  {
   "property": "C66",
   "status": "proved",
   "theorems": [
    "C66_loaded",
    "C66_builtin_quotes",
    "C66_custom",
    "C66_custom_plain",
    "C66_custom_quotes_refuted"
   ],
   "note": "Gazetteer matches quote the text they are given (contract of the gazetteer parser). Refuted part: custom slots do not quote the input in general."
  },
  {
   "property": "C67",
   "status": "proved",
   "theorems": [
    "C67_whole_slot",
    "C67_any_blanks_refuted"
   ],
   "note": "Refuted part: slots with other blanks."
  },
  {
   "property": "C68",
   "status": "proved",
   "theorems": [
    "C68_loaded_engine_never_panics",
    "C68_features_bounded",
    "C68_plain_product_meets_contract"
   ],
   "note": "Contracts: tokenizer, exp, matrix product (a number for bounded factors; met by the plain product), gazetteer ranges inside the text, one tag per token, no panic inside the entity parsers and taggers. That the conditions on the files matter is shown by the refuted theorems of C25, C42, C43, C44 and C64."
  },
  {
   "property": "C69",
   "status": "proved",
   "theorems": [
    "C69_loading_never_panics",
    "C69_any_files_refuted"
   ],
   "note": "The regular expression compiler, the loaders of the entity parsers and of the taggers do not panic (contract). The two exceptions are shown to be real."
  },
  {
   "property": "C70",
   "status": "proved",
   "theorems": [
    "C70_host_never_crashes",
    "C70_archives"
   ],
   "note": "Conditions of C68 and C69 on files and texts; results can be converted to C structures or json (they contain no zero character). Archives: unpacking gives an error or sound files (C70_archives: an archive of a sound directory does)."
  },
  {
   "property": "C71",
   "status": "proved",
   "theorems": [
    "C71_results",
    "C71_texts",
    "C71_balance",
    "C71_stable",
    "C71_destroy",
    "C71_destroy_null",
    "C71_undefined"
   ],
   "note": "The json of a result and the messages contain no zero character (contract). The content of a C structure is that of the conversion, which is a parameter."
  },
  {
   "property": "C72",
   "status": "proved",
   "theorems": [
    "C72_history",
    "C72_parse",
    "C72_numbers",
    "C72_long_numbers",
    "C72_slots",
    "C72_intents",
    "C72_created_dir",
    "C72_created_bytes",
    "C72_program",
    "C72_whole_query_refuted"
   ],
   "note": "json.loads and pathlib are external. ctypes, reference counting and whether the library has the symbol of get_last_error are as in M_Python."
  },
  {
   "property": "C73",
   "status": "proved",
   "theorems": [
    "C73_history",
    "C73_parse",
    "C73_slots",
    "C73_intents",
    "C73_version",
    "C73_created",
    "C73_program",
    "C73_empty_filter",
    "C73_after_close"
   ],
   "note": "The conversion to Kotlin objects is a parameter that may throw. JNA is as in M_Kotlin."
  },
  {
   "property": "C74",
   "status": "proved",
   "theorems": [
    "C74_history",
    "C74_parse",
    "C74_slots",
    "C74_intents",
    "C74_created",
    "C74_program",
    "C74_number_crash",
    "C74_empty_data"
   ],
   "note": "The conversion to Swift structures is a parameter that may throw. Pointers that escape from withUnsafePointer are taken to be valid."
  },
  {
   "property": "C75",
   "status": "proved",
   "theorems": [
    "C75_features",
    "C75_accepted",
    "C75_rejected",
    "C75_slot_filler",
    "C75_wrong_codes_refused_refuted"
   ],
   "note": "The shape of a token and the n-gram utilities are those of snips-nlu-utils, a parameter."
  },
  {
   "property": "C76",
   "status": "proved",
   "theorems": [
    "C76_version",
    "C76_engine",
    "C76_unit",
    "C76_resources",
    "C76_custom_parser",
    "C76_builtin_parser",
    "C76_gazetteers",
    "C76_deterministic",
    "C76_lookup",
    "C76_probabilistic",
    "C76_classifier",
    "C76_featurizer",
    "C76_tfidf",
    "C76_cooccurrence",
    "C76_slot_filler",
    "C76_duplicate_keys_refused_refuted"
   ],
   "note": "From text to json values is serde_json, not modelled; so is the conversion of json numbers to 32-bit floats. The array form of processing unit metadata is not modelled."
  },
  {
   "property": "C77",
   "status": "proved",
   "theorems": [
    "C77_layout",
    "C77_entity_parsers",
    "C77_learnt",
    "C77_nothing_learnt",
    "C77_answer_is_learnt"
   ],
   "note": "The documents are those of C76; what a text is taught as is defined by C62 and C63. Gazetteers, clusters, stems and stop words of the resources are in C58."
  },
  {
   "property": "C78",
   "status": "proved",
   "theorems": [
    "C78_value",
    "C78_place_refused",
    "C78_interval",
    "C78_interval_refuted",
    "C78_ordinal",
    "C78_ordinal_refuted",
    "C78_result",
    "C78_result_with_place",
    "C78_valid_memory",
    "C78_null",
    "C78_parse",
    "C78_slots",
    "C78_intents"
   ],
   "note": "The code that builds the C structures is in snips-nlu-ontology-ffi-macros, outside the repository: that the structure stands for the answer is a hypothesis, met by the layout of Demo_Structs for every answer."
  },
  {
   "property": "C79",
   "status": "proved",
   "theorems": [
    "C79_linearizable",
    "C79_program_order",
    "C79_time",
    "C79_one_at_a_time",
    "C79_no_deadlock",
    "C79_steps_bounded",
    "C79_careful",
    "C79_answers",
    "C79_poisoned",
    "C79_own_error"
   ],
   "note": "A call is cut where another thread may run: before the lock, at the lock, during the work, at the return. The work itself is one step, since the engine is locked. Freeing a client while a call works on it is undefined."
  },
  {
   "property": "C80",
   "status": "proved",
   "theorems": [
    "C80_answers",
    "C80_engine",
    "C80_program_order",
    "C80_one_at_a_time",
    "C80_no_deadlock",
    "C80_lock_released",
    "C80_completes",
    "C80_poison_cause",
    "C80_poisons",
    "C80_poison_stays",
    "C80_refused",
    "C80_asks"
   ],
   "note": "A call of the engine is a function of the answers that it gets from the entity parsers and taggers; the steps of threads are these questions, each cut into the steps made under its lock. Two slot fillers that load the same tagger file count as one tagger."
  },
  {
   "property": "C81",
   "status": "proved",
   "theorems": [
    "C81_only_entities",
    "C81_still_loads",
    "C81_new_values"
   ],
   "note": "Hypotheses: the gazetteer parsers of the directory share no files with each other, the metadata files, the resources or the intent parsers; names in the documents of the resources and intent parsers do not leave their directories; the external entity parsers are put together from the gazetteer parsers listed in their metadata."
  },
  {
   "property": "C82",
   "status": "proved",
   "theorems": [
    "C82_loading",
    "C82_parse",
    "C82_slots",
    "C82_extract",
    "C82_intents",
    "C82_alternatives",
    "C82_tied_alternatives_refuted",
    "C82_three_intents_refuted"
   ],
   "note": "Hypotheses: the external entity parsers take the filter on entity kinds as a set (not visible in /repo); no cooccurrence vectorizer of the directory lists a pair of words twice; external contracts and sizes as in C62 and C63. Answers with intent alternatives are compared when no two confidences are equal; the refuted theorem on ties shows that this condition is needed."
  },
  {
   "property": "C83",
   "status": "proved",
   "theorems": [
    "C83_parse",
    "C83_slots",
    "C83_intents",
    "C83_alternatives",
    "C83_extract",
    "C83_cooccurrences_refuted",
    "C83_shapes_refuted"
   ],
   "note": "Hypotheses on the external libraries: lower-casing and normalizing forget the case (the capital sigma is left out, its lower case depends on the neighbours), tokenizers cut both texts at the same places, patterns compiled as case insensitive ignore the case. Answers with intent alternatives are compared when no two confidences are equal."
  },
  {
   "property": "C84",
   "status": "proved",
   "theorems": [
    "C84_parse",
    "C84_classifier",
    "C84_two_readings_refuted",
    "C84_alternatives_kept",
    "C84_alternatives_but_first"
   ],
   "note": "The condition of one reading is a hypothesis; the refuted theorem shows that it is needed. Alternatives are compared for the same number of requested alternatives and the same seed of the table of intents."
  },
  {
   "property": "C85",
   "status": "proved",
   "theorems": [
    "C85_slots_found",
    "C85_slots",
    "C85_unlisted_refuted",
    "C85_no_slots_refuted"
   ],
   "note": "Both exceptions (an intent that a rule based parser does not list, an intent without slots) are shown on engines."
  },
  {
   "property": "C86",
   "status": "proved",
   "theorems": [
    "C86_monotone",
    "C86_order",
    "C86_binary",
    "C86_saturated",
    "C86_saturated_answer",
    "C86_greatest_wins_refuted"
   ],
   "note": "That the exponential is non-negative and non-decreasing and that exp 0 is 1 are hypotheses about the mathematics library. The linear score is the cell of the matrix product, an oracle."
  },
  {
   "property": "C87",
   "status": "proved",
   "theorems": [
    "C87_parse",
    "C87_intents",
    "C87_rules_alone",
    "C87_not_a_number"
   ],
   "note": "That the exponential of a number is not negative and that of NaN is NaN are hypotheses about the mathematics library; the cells of the matrix product are an oracle. The last part is stated for classifiers with at least two rows of weights."
  },
  {
   "property": "C88",
   "status": "proved",
   "theorems": [
    "C88_only_listed",
    "C88_first_parser",
    "C88_understood",
    "C88_positive"
   ],
   "note": "The contracts of the entity parsers and the sizes of the documents are the hypotheses of C77."
  },
  {
   "property": "C89",
   "status": "proved",
   "theorems": [
    "C89_listed",
    "C89_certain",
    "C89_alternatives",
    "C89_one_rules",
    "C89_one_classifier",
    "C89_nothing",
    "C89_first_refuted"
   ],
   "note": "Findings: with several parsers the first entry can be another intent (C89_first_refuted), and the confidences of the absence of intent differ (C89_nothing)."
  },
  {
   "property": "C90",
   "status": "proved",
   "theorems": [
    "C90_parse",
    "C90_slots",
    "C90_intents",
    "C90_alternatives",
    "C90_extract",
    "C90_empty_refuted"
   ],
   "note": "Finding: a blank text is not treated like the empty text (C90_empty_refuted); a slot that is the whole text contains the blanks (second case of C90_extract)."
  },
  {
   "property": "C91",
   "status": "proved",
   "theorems": [
    "C91_values",
    "C91_elsewhere",
    "C91_still_loads",
    "C91_same_values",
    "C91_same_engine",
    "C91_stuck"
   ],
   "note": "Contracts of the gazetteer library as in C81. Finding: an injection interrupted in one entity blocks injections into all entities (C91_stuck)."
  },
  {
   "property": "C92",
   "status": "proved",
   "theorems": [
    "C92_elsewhere",
    "C92_others",
    "C92_injected",
    "C92_anytime",
    "C92_serial",
    "C92_unhindered",
    "C92_load",
    "C92_never_blocks",
    "C92_alone",
    "C92_both_kept_refuted",
    "C92_load_unhindered_refuted",
    "C92_injection_unhindered_refuted"
   ],
   "note": "Contracts of the gazetteer library as in C81; a schedule interleaves single file changes and times of reading. Findings: lost values (C92_both_kept_refuted) and calls that fail because of others (C92_load_unhindered_refuted, C92_injection_unhindered_refuted)."
  },
  {
   "property": "C93",
   "status": "proved",
   "theorems": [
    "C93_names",
    "C93_entities",
    "C93_get_slots_names",
    "C93_get_slots_entities",
    "C93_extractable",
    "C93_table_entities_refuted",
    "C93_unchecked_refuted"
   ],
   "note": "Agreement of the documents is a hypothesis that loading does not check (C93_unchecked_refuted). The entities of lookup slots are refuted (C93_table_entities_refuted)."
  },
  {
   "property": "C94",
   "status": "proved",
   "theorems": [
    "C94_parse",
    "C94_get_slots",
    "C94_extract",
    "C94_parse_bound",
    "C94_get_slots_bound",
    "C94_extract_bound",
    "C94_none"
   ],
   "note": "The contract of the two entity libraries (alternatives_apart, alternatives_bounded) is a hypothesis; both are outside the repository."
  },
  {
   "property": "C95",
   "status": "proved",
   "theorems": [
    "C95_parse",
    "C95_get_intents",
    "C95_get_slots",
    "C95_extract_slot",
    "C95_loaded_answers_refuted"
   ],
   "note": "Completeness of the documents is a hypothesis that loading does not check (C95_loaded_answers_refuted). The entity libraries and taggers are outside the repository: that they answer is a hypothesis."
  },
  {
   "property": "C96",
   "status": "proved",
   "theorems": [
    "C96_permits",
    "C96_neutral",
    "C96_empty_blacklist_refuted"
   ],
   "note": "An empty blacklist is refuted to be neutral when the dataset does not list all intents of the parsers (C96_empty_blacklist_refuted)."
  },
  {
   "property": "C97",
   "status": "proved",
   "theorems": [
    "C97_parse",
    "C97_parse_else",
    "C97_main_answer",
    "C97_silent",
    "C97_in_front_refuted",
    "C97_get_slots",
    "C97_get_slots_else",
    "C97_get_intents",
    "C97_get_intents_failure",
    "C97_loaded"
   ],
   "note": "That a parser in front changes nothing is refuted (C97_in_front_refuted). C97_loaded: external loaders look only below their path (contract of C59)."
  }
 ]
}