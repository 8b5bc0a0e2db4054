{
 "claims": [
  {
   "property": "C01",
   "status": "proved",
   "theorems": [
    "C01_exact_search",
    "C01_exact_search_distinct"
   ],
   "note": ""
  },
  {
   "property": "C02",
   "status": "proved",
   "theorems": [
    "C02_longest_match"
   ],
   "note": ""
  },
  {
   "property": "C03",
   "status": "proved",
   "theorems": [
    "C03_split_is_query"
   ],
   "note": ""
  },
  {
   "property": "C04",
   "status": "partial",
   "theorems": [
    "C04_found_is_entry_refuted",
    "C04_found_is_entry_iff_partial"
   ],
   "note": "The claim as stated is false (witness {a, abc} / 'abd'); the exact condition under which it holds is proved."
  },
  {
   "property": "C05",
   "status": "proved",
   "theorems": [
    "C05_wordpiece_greedy"
   ],
   "note": ""
  },
  {
   "property": "C06",
   "status": "partial",
   "theorems": [
    "C06_word_independence_refuted",
    "C06_word_independence_partial",
    "C144_words_independent_iff"
   ],
   "note": "False as stated (the search root is not reset after an unknown rest); proved when earlier words are clean; C144 says exactly for which texts it holds."
  },
  {
   "property": "C07",
   "status": "proved",
   "theorems": [
    "C07_wordpiece_total"
   ],
   "note": ""
  },
  {
   "property": "C08",
   "status": "proved",
   "theorems": [
    "C08_clean_words",
    "C08_words_unique",
    "C08_basic_configuration"
   ],
   "note": "The proviso about kept special characters above U+FFFF is the hypothesis no_wide_special; it holds for free in the basic configuration (C08_basic_configuration)."
  },
  {
   "property": "C09",
   "status": "partial",
   "theorems": [
    "C09_kept_chars_unaltered_refuted",
    "C09_private_use_splits_word_refuted",
    "C09_kept_chars_unaltered_partial",
    "C09_kept_chars_unaltered_iff"
   ],
   "note": "False as stated: kept control-class characters above U+FFFF are narrowed to 16 bits. C09_kept_chars_unaltered_iff gives the exact condition: no kept character above U+FFFF is a control character or white space."
  },
  {
   "property": "C10",
   "status": "proved",
   "theorems": [
    "C10_punct_split",
    "C10_pieces_unique"
   ],
   "note": ""
  },
  {
   "property": "C11",
   "status": "partial",
   "theorems": [
    "C11_lower_case_refuted",
    "C11_lower_casing_drops_words",
    "C11_specials_survive_partial"
   ],
   "note": "False as stated: the sizing call reports an overflow error, to_lower returns false with an empty string, and every ordinary word disappears."
  },
  {
   "property": "C12",
   "status": "proved",
   "theorems": [
    "C12_bracketed_ids"
   ],
   "note": "The vocabulary's own tokens must be valid UTF-8; otherwise see C79."
  },
  {
   "property": "C13",
   "status": "proved",
   "theorems": [
    "C13_tokenize_buffer",
    "C13_no_buffer",
    "C13_failure_untouched",
    "C13_two_calls",
    "C13_capacity_must_be_honest"
   ],
   "note": "for any model behind the context and any caller memory; writing past the object is UB in the model, and UB occurs exactly for an untrue capacity"
  },
  {
   "property": "C14",
   "status": "proved",
   "theorems": [
    "C14_id_to_token_buffer",
    "C14_two_calls",
    "C14_no_model",
    "C14_true_iff_entry"
   ],
   "note": "any model and caller memory; truth value characterised for a loaded vocabulary"
  },
  {
   "property": "C15",
   "status": "partial",
   "theorems": [
    "C15_token_to_id_refuted",
    "C15_no_model_partial"
   ],
   "note": "false as stated: berts_token_to_id returns 0 (the macro's default is `false`); the seven special-id getters do return the invalid id"
  },
  {
   "property": "C16",
   "status": "proved",
   "theorems": [
    "C16_round_trip",
    "C16_dictionary_round_trip"
   ],
   "note": "converter tensors -> loader; also from the tokenizer dictionary"
  },
  {
   "property": "C17",
   "status": "proved",
   "theorems": [
    "C17_bijection",
    "C17_accepted_iff",
    "C17_repeated_token_rejected",
    "C17_wrong_tensor_rejected"
   ],
   "note": "for vocabularies of fewer than 2^32 tokens (ids are 32-bit)"
  },
  {
   "property": "C18",
   "status": "partial",
   "theorems": [
    "C18_in_bounds_refuted",
    "C18_in_bounds_partial",
    "C18_trailing_data_rejected"
   ],
   "note": "false as stated: lengths adding up to more than the data are read out of bounds before the final size check; UB characterised exactly"
  },
  {
   "property": "C19",
   "status": "proved",
   "theorems": [
    "C19_bert_special_ids",
    "C19_special_id_unique",
    "C19_wrong_type_aborts",
    "C19_roberta_special_ids",
    "C19_roberta_loaded",
    "C19_roberta_missing"
   ],
   "note": "BERT and RoBERTa"
  },
  {
   "property": "C20",
   "status": "partial",
   "theorems": [
    "C20_in_range_refuted",
    "C20_in_range_partial",
    "C20_in_range_iff"
   ],
   "note": "false as stated: a stored id is never compared with the vocabulary size; the ids are in range exactly if the stored ones are"
  },
  {
   "property": "C21",
   "status": "proved",
   "theorems": [
    "C21_each_cp_inverts_utf16",
    "C21_each_cp_arbitrary"
   ],
   "note": ""
  },
  {
   "property": "C22",
   "status": "proved",
   "theorems": [
    "C22_comparison",
    "C22_strict_total_order",
    "C22_equal_hash",
    "C22_hash_value",
    "C22_concat"
   ],
   "note": "Stated for strings that hold a value; default-constructed strings are C74."
  },
  {
   "property": "C23",
   "status": "partial",
   "theorems": [
    "C23_starts_ends_refuted",
    "C23_starts_ends_partial"
   ],
   "note": "False as stated: memcmp is given the number of units, not bytes. The exact acceptance condition is proved."
  },
  {
   "property": "C24",
   "status": "proved",
   "theorems": [
    "C24_lstrip",
    "C24_rstrip",
    "C24_strip_arbitrary",
    "C24_run_unique",
    "C24_strip_algebra"
   ],
   "note": ""
  },
  {
   "property": "C25",
   "status": "proved",
   "theorems": [
    "C25_regex_split",
    "C25_engine_error_returns_zero"
   ],
   "note": "The regex engine is an arbitrary source of ordered matches."
  },
  {
   "property": "C26",
   "status": "proved",
   "theorems": [
    "C26_gpt2_alphabet",
    "C26_injective",
    "C26_visible",
    "C26_spelling"
   ],
   "note": ""
  },
  {
   "property": "C27",
   "status": "partial",
   "theorems": [
    "C27_round_trip_refuted",
    "C27_round_trip_partial",
    "C27_id_to_token",
    "C27_token_to_id"
   ],
   "note": "false as stated for bytes 0x7f..0xa0 and 0xad (exact characterisation in C27_id_to_token); holds for bytes below 0x7f"
  },
  {
   "property": "C28",
   "status": "partial",
   "theorems": [
    "C28_defined_refuted",
    "C28_token_to_id_undefined",
    "C28_non_ascii_undefined",
    "C28_ascii_defined_partial"
   ],
   "note": "false as stated: a byte from 0x80 on indexes the table with a negative char; defined on 7-bit text"
  },
  {
   "property": "C29",
   "status": "proved",
   "theorems": [
    "C29_special_split",
    "C29_ordinary_parts"
   ],
   "note": ""
  },
  {
   "property": "C30",
   "status": "partial",
   "theorems": [
    "C30_order_refuted",
    "C30_order_partial",
    "C30_order_iff"
   ],
   "note": "false as stated when one special token is a proper prefix of another; holds for every order and text exactly when no special token is a proper prefix of another"
  },
  {
   "property": "C31",
   "status": "partial",
   "theorems": [
    "C31_terminates_refuted",
    "C31_empty_special_hangs",
    "C31_terminates_partial",
    "C31_fuel_irrelevant"
   ],
   "note": "false as stated: a stored special id outside the vocabulary is the empty string and the loop never advances; terminates when no special token is empty"
  },
  {
   "property": "C32",
   "status": "proved",
   "theorems": [
    "C32_lossless",
    "C32_lossless_no_mask"
   ],
   "note": "special tokens of printable ASCII present in the vocabulary"
  },
  {
   "property": "C33",
   "status": "proved",
   "theorems": [
    "C33_terminates_in_bounds",
    "C33_never_out_of_bounds",
    "C33_linear_without_dropout"
   ],
   "note": ""
  },
  {
   "property": "C34",
   "status": "proved",
   "theorems": [
    "C34_lossless",
    "C34_lossless_plain"
   ],
   "note": ""
  },
  {
   "property": "C35",
   "status": "proved",
   "theorems": [
    "C35_canonical",
    "C35_canonical_unique",
    "C35_canonical_no_prefix"
   ],
   "note": "The case of a short unknown token is C78."
  },
  {
   "property": "C36",
   "status": "proved",
   "theorems": [
    "C36_legal",
    "C36_all_skipped"
   ],
   "note": ""
  },
  {
   "property": "C37",
   "status": "proved",
   "theorems": [
    "C37_cache_invisible",
    "C37_dropout_disables_cache"
   ],
   "note": ""
  },
  {
   "property": "C38",
   "status": "proved",
   "theorems": [
    "C38_unknown_plain",
    "C38_unknown_fused",
    "C38_unknown_dropped",
    "C38_no_merges"
   ],
   "note": ""
  },
  {
   "property": "C39",
   "status": "proved",
   "theorems": [
    "C39_load_succeeds_iff",
    "C39_table_and_dictionary",
    "C39_token_overload"
   ],
   "note": "For a model without earlier loads; further loads are C77."
  },
  {
   "property": "C40",
   "status": "partial",
   "theorems": [
    "C40_clear_like_new_refuted",
    "C40_clear_partial"
   ],
   "note": "False as stated: the id-to-token map survives clear(). What is forgotten, and when a reload is clean, is proved."
  },
  {
   "property": "C41",
   "status": "proved",
   "theorems": [
    "C41_eval_rejects",
    "C41_eval_accepts",
    "C41_missing_arguments"
   ],
   "note": ""
  },
  {
   "property": "C42",
   "status": "proved",
   "theorems": [
    "C42_same_layer",
    "C42_layer_unique"
   ],
   "note": ""
  },
  {
   "property": "C43",
   "status": "proved",
   "theorems": [
    "C43_eval_writes",
    "C43_dry_run",
    "C43_two_calls"
   ],
   "note": ""
  },
  {
   "property": "C44",
   "status": "partial",
   "theorems": [
    "C44_dry_run_predicts_refuted",
    "C44_dry_run_predicts_partial",
    "C44_dry_run_iff"
   ],
   "note": "false as stated: a dry run does not check the output layer; after a successful dry run the call succeeds exactly when the layer is in range"
  },
  {
   "property": "C45",
   "status": "partial",
   "theorems": [
    "C45_lookups_inside_refuted",
    "C45_lookups_inside_iff",
    "C45_bert_lookups_partial"
   ],
   "note": "false as stated: word ids are never checked; exact condition proved"
  },
  {
   "property": "C46",
   "status": "proved",
   "theorems": [
    "C46_roberta_positions"
   ],
   "note": "for padding id + length below 2^31"
  },
  {
   "property": "C47",
   "status": "partial",
   "theorems": [
    "C47_lookups_inside_refuted",
    "C47_full_request_undefined",
    "C47_roberta_lookups_iff",
    "C47_roberta_lookups_partial"
   ],
   "note": "false as stated: max_tokens ordinary tokens read past the table; exact condition proved"
  },
  {
   "property": "C48",
   "status": "proved",
   "theorems": [
    "C48_encoder_memory"
   ],
   "note": ""
  },
  {
   "property": "C49",
   "status": "proved",
   "theorems": [
    "C49_lm_memory"
   ],
   "note": ""
  },
  {
   "property": "C50",
   "status": "proved",
   "theorems": [
    "C50_encoder_shapes"
   ],
   "note": ""
  },
  {
   "property": "C51",
   "status": "proved",
   "theorems": [
    "C51_lm_length",
    "C51_lm_dry_run",
    "C51_lm_one_buffer",
    "C51_lm_missing_arguments"
   ],
   "note": ""
  },
  {
   "property": "C52",
   "status": "proved",
   "theorems": [
    "C52_top_k"
   ],
   "note": ""
  },
  {
   "property": "C53",
   "status": "partial",
   "theorems": [
    "C53_lm_respects_buffers_refuted",
    "C53_top_k_defined_iff",
    "C53_all_defined_iff"
   ],
   "note": "false as stated: with top_k > 0 the capacity is ignored and top_k above the vocabulary reads and writes past the tables; exact conditions proved"
  },
  {
   "property": "C54",
   "status": "partial",
   "theorems": [
    "C54_own_probability_refuted",
    "C54_all_written"
   ],
   "note": "false as stated: ids are sorted, probabilities are not; what is written is proved"
  },
  {
   "property": "C55",
   "status": "proved",
   "theorems": [
    "C55_pool_enough",
    "C55_pool_exact",
    "C55_reading_defined",
    "C55_pool_tight"
   ],
   "note": ""
  },
  {
   "property": "C56",
   "status": "proved",
   "theorems": [
    "C56_loaded_iff",
    "C56_bad_general_aborts",
    "C56_bad_settings_abort",
    "C56_unsupported_null",
    "C56_unreadable_null",
    "C56_incomplete_null"
   ],
   "note": ""
  },
  {
   "property": "C57",
   "status": "proved",
   "theorems": [
    "C57_required_tensors",
    "C57_missing_tensor",
    "C57_head_optional",
    "C57_layer_limit"
   ],
   "note": ""
  },
  {
   "property": "C58",
   "status": "proved",
   "theorems": [
    "C58_no_double_free",
    "C58_all_freed"
   ],
   "note": "Operations of unique_ctx on any number of handles; the resources are freed by an external function. Resources overwritten through ptr() on a full handle are excluded by a hypothesis (the library only does this on empty handles)."
  },
  {
   "property": "C59",
   "status": "partial",
   "theorems": [
    "C59_free_releases_all_refuted",
    "C59_failed_load_refuted",
    "C59_partial",
    "C59_leak",
    "C59_handles"
   ],
   "note": "false as stated: the file context and the pool are never freed; what is left is characterised for every history"
  },
  {
   "property": "C60",
   "status": "proved",
   "theorems": [
    "C60_written_iff",
    "C60_monotone",
    "C60_quiet",
    "C60_histories"
   ],
   "note": "One-argument logging functions; the text must not contain '%' or NUL (see C62)."
  },
  {
   "property": "C61",
   "status": "partial",
   "theorems": [
    "C61_errors_visible_refuted",
    "C61_errors_visible_partial",
    "C61_other_severities"
   ],
   "note": "Refuted: errors with arguments are tested against INFO and are silent at the default level. Proved: the exact levels at which each overload writes."
  },
  {
   "property": "C62",
   "status": "partial",
   "theorems": [
    "C62_logging_safe_refuted",
    "C62_logging_defined_iff",
    "C62_logging_safe_partial",
    "C62_unknown_token"
   ],
   "note": "Refuted: the message is used as a format string. Proved: defined exactly if every '%' is doubled (or nothing is written)."
  },
  {
   "property": "C63",
   "status": "partial",
   "theorems": [
    "C63_selection",
    "C63_refuses",
    "C63_duplicates_refuted"
   ],
   "note": "proved for files with distinct tensor names; false when a name occurs twice: the second tensor is replaced by the first"
  },
  {
   "property": "C64",
   "status": "partial",
   "theorems": [
    "C64_layout",
    "C64_reread_partial",
    "C64_loads_partial",
    "C64_alignment_refuted",
    "C64_rows_refuted"
   ],
   "note": "positions proved; reading back is proved for alignment 32 and rows of whole blocks, and false otherwise"
  },
  {
   "property": "C65",
   "status": "proved",
   "theorems": [
    "C65_no_magic_before_end",
    "C65_failure_no_magic",
    "C65_torn_metadata"
   ],
   "note": "C65_torn_metadata: the last write itself can be cut so that the magic is there"
  },
  {
   "property": "C66",
   "status": "partial",
   "theorems": [
    "C66_success_means_complete_refuted",
    "C66_failures_ignored",
    "C66_complete_partial"
   ],
   "note": "false as stated: write errors are not looked at; proved when the stream is good at the end"
  },
  {
   "property": "C67",
   "status": "partial",
   "theorems": [
    "C67_accepts_partial",
    "C67_unambiguous",
    "C67_argument_count",
    "C67_undefined_iff",
    "C67_arguments_refuted",
    "C67_exit_status_refuted",
    "C67_status_ignores_result"
   ],
   "note": "false as stated: the exit status is 0 when quantization fails, and a number that is no int (or a byte that is a negative char) is undefined behaviour; the accepted strings and the undefined ones are characterised exactly"
  },
  {
   "property": "C68",
   "status": "proved",
   "theorems": [
    "C68_converter_unique",
    "C68_bad_ids_rejected",
    "C68_search_ends"
   ],
   "note": "includes termination of the filler-name search"
  },
  {
   "property": "C69",
   "status": "proved",
   "theorems": [
    "C69_merge_round_trip",
    "C69_converter_accepts_iff",
    "C69_loader_accepts_iff",
    "C69_loader_rejects"
   ],
   "note": ""
  },
  {
   "property": "C70",
   "status": "partial",
   "theorems": [
    "C70_out_of_bounds",
    "C70_buffer_refuted",
    "C70_inside_partial"
   ],
   "note": "False as stated: the token buffer has one cell per byte of the prompt, and every prompt with more tokens than bytes (such as a one-letter prompt, which has at least cls and sep) is read out of bounds. C70_out_of_bounds proves this for all such prompts, C70_buffer_refuted shows one on a complete file, C70_inside_partial proves that nothing else is read out of bounds when the tokens fit."
  },
  {
   "property": "C71",
   "status": "partial",
   "theorems": [
    "C71_wordpiece_greedy_refuted",
    "C05_wordpiece_greedy",
    "C143_agrees_with_reference_iff"
   ],
   "note": "False as stated; C05 gives the dead-end-free case, C143 the exact condition."
  },
  {
   "property": "C72",
   "status": "partial",
   "theorems": [
    "C72_unknown_word_single_unk_refuted",
    "C72_single_unknown_iff"
   ],
   "note": "False as stated: known leading pieces are emitted before the unknown token. C72_single_unknown_iff: true exactly for the words that start with no entry."
  },
  {
   "property": "C73",
   "status": "proved",
   "theorems": [
    "C73_string_objects_are_values"
   ],
   "note": ""
  },
  {
   "property": "C74",
   "status": "partial",
   "theorems": [
    "C74_default_is_empty_refuted",
    "C74_default_is_empty_partial"
   ],
   "note": "False as stated: the size field is never initialised."
  },
  {
   "property": "C75",
   "status": "partial",
   "theorems": [
    "C75_strings_freed_refuted",
    "C75_blocks_exact",
    "C75_strings_freed_iff"
   ],
   "note": "False as stated: the implementation block of every string leaks. C75_blocks_exact counts the lost blocks of every program."
  },
  {
   "property": "C76",
   "status": "proved",
   "theorems": [
    "C76_utf8_accepts_exactly",
    "C76_utf8_to_utf16",
    "C76_utf8_round_trip",
    "C76_utf16_round_trip"
   ],
   "note": "ICU's strict UTF-8 decoder is modelled, see DESIGN.md."
  },
  {
   "property": "C77",
   "status": "partial",
   "theorems": [
    "C77_second_load_appends_refuted",
    "C77_second_load_appends_partial",
    "C77_ranks_exact",
    "C77_second_load_appends_iff"
   ],
   "note": "False when the first list repeats a pair; proved for lists without repetitions. The ranks of both lists are given exactly whatever is repeated, and with them the exact condition under which the second list ranks after the first."
  },
  {
   "property": "C78",
   "status": "partial",
   "theorems": [
    "C78_short_unknown_canonical_refuted",
    "C78_short_unknown_canonical_partial"
   ],
   "note": "False: a stale queue entry can be taken for a fresh one. Proved when the unknown token is longer than the prefix."
  },
  {
   "property": "C79",
   "status": "partial",
   "theorems": [
    "C79_any_bytes_refuted",
    "C79_defined_iff_valid_partial"
   ],
   "note": "False as stated; defined exactly on valid UTF-8."
  },
  {
   "property": "C80",
   "status": "partial",
   "theorems": [
    "C80_unusable_vocabulary_reported_refuted",
    "C80_no_continuation_partial"
   ],
   "note": "False as stated: the call succeeds with just the two brackets."
  },
  {
   "property": "C81",
   "status": "partial",
   "theorems": [
    "C81_special_token_id_refuted",
    "C11_specials_survive_partial",
    "C83_end_to_end",
    "C145_tokenize_exact"
   ],
   "note": "False as stated: after a word that became unknown past its first piece, the special token is looked up as a continuation. True when every piece of the text segments (C83_end_to_end); C145 gives the ids of every text."
  },
  {
   "property": "C82",
   "status": "proved",
   "theorems": [
    "C82_whitespace_separates",
    "C82_extra_whitespace"
   ],
   "note": ""
  },
  {
   "property": "C83",
   "status": "proved",
   "theorems": [
    "C83_end_to_end"
   ],
   "note": "C83_nonvacuous meets all hypotheses at once."
  },
  {
   "property": "C84",
   "status": "partial",
   "theorems": [
    "C84_converter_output_loads_refuted",
    "C84_empty_token_never_loads",
    "C16_dictionary_round_trip"
   ],
   "note": "false as stated: an empty token is written with length 0, read as 256; for tokens of 1..256 bytes see C16"
  },
  {
   "property": "C85",
   "status": "partial",
   "theorems": [
    "C85_rank_order_refuted",
    "C85_rank_ignored",
    "C85_sorted_ranks_partial"
   ],
   "note": "false as stated: the rank column is not read; holds for tables written in rank order"
  },
  {
   "property": "C86",
   "status": "proved",
   "theorems": [
    "C86_seven_bit_total",
    "C86_id_to_token_total",
    "C86_load_defined"
   ],
   "note": ""
  },
  {
   "property": "C87",
   "status": "partial",
   "theorems": [
    "C87_every_layer_checked_refuted",
    "C87_least_layer_undefined"
   ],
   "note": "false for INT64_MIN; for all other layers see C41_eval_rejects"
  },
  {
   "property": "C88",
   "status": "partial",
   "theorems": [
    "C88_valid_requests_defined_refuted",
    "C88_no_tokens_undefined"
   ],
   "note": "false: division by zero in the tensor library's shape check"
  },
  {
   "property": "C89",
   "status": "proved",
   "theorems": [
    "C89_too_many_nodes"
   ],
   "note": ""
  },
  {
   "property": "C90",
   "status": "partial",
   "theorems": [
    "C90_reference_positions_refuted",
    "C90_reference_positions_partial"
   ],
   "note": "false for padding tokens, which get 0 instead of the padding id; equal exactly when there is no padding token or its id is 0"
  },
  {
   "property": "C91",
   "status": "proved",
   "theorems": [
    "C91_encoder_values"
   ],
   "note": ""
  },
  {
   "property": "C92",
   "status": "proved",
   "theorems": [
    "C54_all_written",
    "C52_top_k"
   ],
   "note": ""
  },
  {
   "property": "C93",
   "status": "proved",
   "theorems": [
    "C93_bad_head_count"
   ],
   "note": ""
  },
  {
   "property": "C94",
   "status": "proved",
   "theorems": [
    "C94_other_activations_fail"
   ],
   "note": ""
  },
  {
   "property": "C95",
   "status": "proved",
   "theorems": [
    "C95_no_head"
   ],
   "note": ""
  },
  {
   "property": "C96",
   "status": "proved",
   "theorems": [
    "C96_null_segments"
   ],
   "note": ""
  },
  {
   "property": "C97",
   "status": "partial",
   "theorems": [
    "C97_truncation_detected_refuted",
    "C97_others_inside_partial",
    "C97_undetermined",
    "C97_cut_outcome"
   ],
   "note": "false as stated: the last read is not checked. C97_cut_outcome gives the outcome for every place where a file is cut: only a cut inside the last tensor goes unnoticed"
  },
  {
   "property": "C98",
   "status": "partial",
   "theorems": [
    "C98_load_safe_refuted",
    "C98_long_name_undefined",
    "C98_load_safe_partial",
    "C98_undefined_iff",
    "C98_bert_vocabulary_undefined_iff"
   ],
   "note": "false as stated for tensor names of 64 bytes or more; C98_undefined_iff says exactly which files are undefined, C98_bert_vocabulary_undefined_iff spells the condition on the vocabulary out for BERT"
  },
  {
   "property": "C99",
   "status": "partial",
   "theorems": [
    "C99_label_refuted",
    "C99_label_iff"
   ],
   "note": "false as stated (ggml type numbers are stored where file type numbers are read); the types with a right label are characterised"
  },
  {
   "property": "C100",
   "status": "partial",
   "theorems": [
    "C100_shapes_checked_refuted"
   ],
   "note": "false: shapes are not checked; C102 covers files with the declared shapes"
  },
  {
   "property": "C101",
   "status": "proved",
   "theorems": [
    "C101_settings"
   ],
   "note": ""
  },
  {
   "property": "C102",
   "status": "proved",
   "theorems": [
    "C102_sound",
    "C102_eval_of_file",
    "C102_lm_sound"
   ],
   "note": ""
  },
  {
   "property": "C103",
   "status": "proved",
   "theorems": [
    "C103_buffer_enough"
   ],
   "note": "for conversions that write whole blocks (chunk_ok)"
  },
  {
   "property": "C104",
   "status": "partial",
   "theorems": [
    "C104_all_types_load_refuted",
    "C104_q8_1_loses_weights",
    "C104_types_partial"
   ],
   "note": "false for Q8_1; the other types are convertible, so C64_loads_partial covers them"
  },
  {
   "property": "C105",
   "status": "proved",
   "theorems": [
    "C105_not_touched",
    "C105_defined"
   ],
   "note": ""
  },
  {
   "property": "C106",
   "status": "proved",
   "theorems": [
    "C106_rows",
    "C106_shapes",
    "C106_sound"
   ],
   "note": ""
  },
  {
   "property": "C107",
   "status": "partial",
   "theorems": [
    "C107_bits_per_weight_refuted",
    "C107_bits_per_weight_iff",
    "C107_size_partial"
   ],
   "note": "false for Q4_0, Q4_1 and Q8_0 (their scales have 16 bits); exactly the other types are right"
  },
  {
   "property": "C108",
   "status": "proved",
   "theorems": [
    "C108_checkpoint_to_lines"
   ],
   "note": "Prompts of 7-bit characters with no more tokens than bytes (C133_no_more_ids_than_bytes: always so with a mask of at least 3 bytes among the parts) and few enough for the position rows."
  },
  {
   "property": "C109",
   "status": "proved",
   "theorems": [
    "C109_most_probable"
   ],
   "note": "For prompts whose tokens fit the buffer (see C70). The parameters quantify over every content of uninitialised memory."
  },
  {
   "property": "C110",
   "status": "partial",
   "theorems": [
    "C110_bad_number_aborts",
    "C110_bad_number_refuted",
    "C110_not_positive",
    "C110_rest_ignored"
   ],
   "note": "False as stated: std::stoi throws logic errors, the tool catches runtime errors, so text without a number or out of range ends in std::terminate. Zero and negative numbers are refused with status 1; text after the number is ignored."
  },
  {
   "property": "C111",
   "status": "proved",
   "theorems": [
    "C111_one_mask"
   ],
   "note": ""
  },
  {
   "property": "C112",
   "status": "proved",
   "theorems": [
    "C112_status",
    "C112_argument_count",
    "C112_no_model",
    "C112_refused_file",
    "C112_too_many_tokens",
    "C112_no_head"
   ],
   "note": ""
  },
  {
   "property": "C113",
   "status": "proved",
   "theorems": [
    "C113_token_texts"
   ],
   "note": ""
  },
  {
   "property": "C114",
   "status": "proved",
   "theorems": [
    "C114_file_to_lines"
   ],
   "note": "The loaded file, tokenizer, encoder, head and tool composed; limits of the tensor library (context size, node count) are hypotheses, met by the example file."
  },
  {
   "property": "C115",
   "status": "proved",
   "theorems": [
    "C115_written_reads_back"
   ],
   "note": ""
  },
  {
   "property": "C116",
   "status": "proved",
   "theorems": [
    "C116_cut_refused",
    "C116_not_a_model"
   ],
   "note": ""
  },
  {
   "property": "C117",
   "status": "proved",
   "theorems": [
    "C117_quantized_file_loads",
    "C117_pairs_kept",
    "C117_quantized_file_evaluates"
   ],
   "note": "For files whose alignment is 32 (C64 shows what happens otherwise), whose pairs have known types and where the first and last value of each key agree (C119 shows what happens otherwise)."
  },
  {
   "property": "C118",
   "status": "partial",
   "theorems": [
    "C118_failure_leaves_no_model",
    "C118_interrupted_leaves_no_model",
    "C118_interrupted_safe_refuted",
    "C118_torn_header_aborts"
   ],
   "note": "Holds for failures and for interruptions before the last write; if the last write stops after the version number, opening the result aborts the process."
  },
  {
   "property": "C119",
   "status": "partial",
   "theorems": [
    "C119_duplicate_settings_refuted",
    "C119_first_read_last_written",
    "C117_quantized_file_loads"
   ],
   "note": "False: the loader uses the first pair, the copy keeps the last value, for every file (C119_first_read_last_written). True when the first and last value of each key are the same (C117)."
  },
  {
   "property": "C120",
   "status": "proved",
   "theorems": [
    "C120_conversion_succeeds",
    "C120_settings_kept"
   ],
   "note": ""
  },
  {
   "property": "C121",
   "status": "proved",
   "theorems": [
    "C121_bert_loads"
   ],
   "note": ""
  },
  {
   "property": "C122",
   "status": "proved",
   "theorems": [
    "C122_roberta_loads"
   ],
   "note": "Merges of tokens of the vocabulary that give tokens of the vocabulary; the unknown token of 7-bit characters."
  },
  {
   "property": "C123",
   "status": "proved",
   "theorems": [
    "C123_parameters_stored"
   ],
   "note": ""
  },
  {
   "property": "C124",
   "status": "proved",
   "theorems": [
    "C124_checkpoint_to_values"
   ],
   "note": "Hidden and intermediate size of at least 2 (C128 shows why); for RoBERTa the position table must have enough rows (C47)."
  },
  {
   "property": "C125",
   "status": "proved",
   "theorems": [
    "C125_checkpoint_to_lines"
   ],
   "note": "For prompts with at most as many tokens as bytes (C70)."
  },
  {
   "property": "C126",
   "status": "partial",
   "theorems": [
    "C126_accepted",
    "C126_output",
    "C126_old_model_kept_refuted"
   ],
   "note": "The output of a failed conversion loads as null, but an earlier model at that path is lost; other classes leave the file alone."
  },
  {
   "property": "C127",
   "status": "partial",
   "theorems": [
    "C127_activation_refuted",
    "C127_other_activation"
   ],
   "note": "False: relu, silu and gelu_new are converted for RoBERTa and always refused by the loader. C122 is the true part."
  },
  {
   "property": "C128",
   "status": "partial",
   "theorems": [
    "C128_any_extent_refuted",
    "C124_checkpoint_to_values"
   ],
   "note": "False for an intermediate size of 1: squeeze drops an extent of the output matrix and evaluation aborts. C124 is the true part."
  },
  {
   "property": "C129",
   "status": "partial",
   "theorems": [
    "C129_letters_kept_refuted"
   ],
   "note": "False: case and accents are still handled, and lower-casing removes the words."
  },
  {
   "property": "C130",
   "status": "proved",
   "theorems": [
    "C130_schedules"
   ],
   "note": "What is shared is the tensor library's table of contexts; changing the log level or log file from a thread and freeing a context another thread uses are left out."
  },
  {
   "property": "C131",
   "status": "partial",
   "theorems": [
    "C131_any_number_refuted",
    "C131_single_thread",
    "C131_load_and_free",
    "C131_failed_loads"
   ],
   "note": "False: freeing does not give the model's context back (C59), and a load that fails late keeps one too; with the 64 contexts of the library the 64th load returns null. C131_single_thread says exactly what every program of one thread is told."
  },
  {
   "property": "C132",
   "status": "partial",
   "theorems": [
    "C132_concurrent_refuted",
    "C132_full_table"
   ],
   "note": "False with 63 models loaded: the null pointer for the second evaluation's context is used. C130 is the true part."
  },
  {
   "property": "C133",
   "status": "proved",
   "theorems": [
    "C133_byte_pair_encoding",
    "C133_unique",
    "C133_known_ids",
    "C133_no_more_ids_than_bytes"
   ],
   "note": "The pattern's matches are a parameter, as reported by the regular expression engine. Texts with bytes from 0x80 on are undefined behaviour (C28)."
  },
  {
   "property": "C134",
   "status": "proved",
   "theorems": [
    "C134_checkpoint_tokens"
   ],
   "note": "7-bit texts, as in C133."
  },
  {
   "property": "C135",
   "status": "proved",
   "theorems": [
    "C135_cpp_is_c",
    "C135_unequal_lengths"
   ],
   "note": ""
  },
  {
   "property": "C136",
   "status": "partial",
   "theorems": [
    "C136_initial_request",
    "C136_null_ignored",
    "C136_always_accepted_refuted"
   ],
   "note": "False for a model without layers, which refuses -1; proved for every model with a layer."
  },
  {
   "property": "C137",
   "status": "proved",
   "theorems": [
    "C137_pooled_from_states"
   ],
   "note": ""
  },
  {
   "property": "C138",
   "status": "proved",
   "theorems": [
    "C138_later_layers"
   ],
   "note": ""
  },
  {
   "property": "C139",
   "status": "proved",
   "theorems": [
    "C139_kind_of_model"
   ],
   "note": ""
  },
  {
   "property": "C140",
   "status": "proved",
   "theorems": [
    "C140_quantized_checkpoint_to_values"
   ],
   "note": "composition of conversion, quantization, loading and evaluation; the block conversion (ggml_quantize_chunk, ggml_fp16_to_fp32_row) and how its blocks are read are parameters; the file written is assumed shorter than 2^64 bytes"
  },
  {
   "property": "C141",
   "status": "proved",
   "theorems": [
    "C141_quantized_checkpoint_to_lines",
    "C141_quantized_roberta_to_lines"
   ],
   "note": "BERT prompts of valid UTF-8, RoBERTa prompts of 7-bit characters and plain special tokens, as in C125 and C108; the blocks written are bytes"
  },
  {
   "property": "C142",
   "status": "proved",
   "theorems": [
    "C142_wordpiece_exact",
    "C142_run_exists_unique"
   ],
   "note": "strengthens C05, C06, C71, C72 to every word"
  },
  {
   "property": "C143",
   "status": "proved",
   "theorems": [
    "C143_agrees_with_reference_iff"
   ],
   "note": "the reference's limit of 100 characters a word is not part of the statement"
  },
  {
   "property": "C144",
   "status": "proved",
   "theorems": [
    "C144_words_independent_iff"
   ],
   "note": "the unknown id is not that of a '##' entry"
  },
  {
   "property": "C145",
   "status": "proved",
   "theorems": [
    "C145_tokenize_exact",
    "C145_tokenize_total"
   ],
   "note": "with lower-casing on, words vanish (C11, C12); the exact statement allows the non-basic settings too, for texts without control or blank characters above U+FFFF (C09)"
  },
  {
   "property": "C146",
   "status": "proved",
   "theorems": [
    "C146_all_probabilities",
    "C146_best_probabilities"
   ],
   "note": "exact real arithmetic instead of floating point; axioms of Coq's Reals"
  },
  {
   "property": "C147",
   "status": "proved",
   "theorems": [
    "C147_printed_probabilities"
   ],
   "note": "exact real arithmetic; conditions of C109"
  },
  {
   "property": "C148",
   "status": "proved",
   "theorems": [
    "C148_pooled_inside"
   ],
   "note": "exact real arithmetic (in floating point the bounds can be reached by rounding)"
  },
  {
   "property": "C149",
   "status": "proved",
   "theorems": [
    "C149_states_bounded"
   ],
   "note": "exact real arithmetic; the layer norm constant is positive"
  },
  {
   "property": "C150",
   "status": "proved",
   "theorems": [
    "C150_padding_anywhere"
   ],
   "note": "exact real arithmetic: with rounding, sums depend on the order in the last digits"
  },
  {
   "property": "C151",
   "status": "partial",
   "theorems": [
    "C151_padding_ignored_refuted",
    "C152_embedding_sees_no_later_token"
   ],
   "note": "false as stated: there is no attention mask, so padding takes part in pooling and attention; what holds is C150, and C152 for the embedding layer"
  },
  {
   "property": "C152",
   "status": "proved",
   "theorems": [
    "C152_embedding_sees_no_later_token"
   ],
   "note": "any arithmetic; BERT and RoBERTa"
  },
  {
   "property": "C153",
   "status": "proved",
   "theorems": [
    "C153_no_gap",
    "C153_words_exact",
    "C153_words_unique"
   ],
   "note": "ICU's meaning of the operators is trusted (Pattern_model.v); the classes are parameters"
  },
  {
   "property": "C154",
   "status": "proved",
   "theorems": [
    "C154_tokens_exact",
    "C154_unique"
   ],
   "note": "7-bit texts, since others are undefined behaviour (C28)"
  },
  {
   "property": "C155",
   "status": "proved",
   "theorems": [
    "C155_words_independent"
   ],
   "note": "7-bit texts; blanks trimmed before a mask are assumed to be blanks of the pattern (u_isblank is contained in \\s)"
  },
  {
   "property": "C156",
   "status": "proved",
   "theorems": [
    "C156_test_iff",
    "C156_places",
    "C156_split_any"
   ],
   "note": "expressions as terms; their textual syntax and the engine's resource limits are not modelled"
  },
  {
   "property": "C157",
   "status": "proved",
   "theorems": [
    "C157_program"
   ],
   "note": "ICU's functions are assumed to report status and size as stated in Icu_model.v"
  },
  {
   "property": "C158",
   "status": "proved",
   "theorems": [
    "C158_values",
    "C158_defined"
   ],
   "note": ""
  },
  {
   "property": "C159",
   "status": "partial",
   "theorems": [
    "C159_encode_refuted",
    "C159_encode_exact"
   ],
   "note": "false as stated: to_lower and to_upper leave the error field of their const argument at 'buffer overflow', encode then uses an uninitialised size. C159_encode_exact gives the outcome in every reachable state"
  },
  {
   "property": "C160",
   "status": "partial",
   "theorems": [
    "C160_other",
    "C160_in_place_refuted",
    "C160_tokenizer"
   ],
   "note": "true for different objects; in place the call returns false and the text is lost, for every text with a non-empty normal form"
  },
  {
   "property": "C161",
   "status": "partial",
   "theorems": [
    "C161_case_refuted",
    "C161_in_place",
    "C161_tokenizer"
   ],
   "note": "false as stated: the size query is reported as overflow, which the code takes for a failure; the result is always empty"
  },
  {
   "property": "C162",
   "status": "proved",
   "theorems": [
    "C162_patterns",
    "C162_all_closed",
    "C162_null",
    "C162_moved"
   ],
   "note": ""
  },
  {
   "property": "C163",
   "status": "proved",
   "theorems": [
    "C163_names",
    "C163_injective",
    "C163_is_category",
    "C163_punct",
    "C163_tokenizer"
   ],
   "note": ""
  },
  {
   "property": "C164",
   "status": "proved",
   "theorems": [
    "C164_nfc",
    "C164_nfd",
    "C160_tokenizer"
   ],
   "note": ""
  },
  {
   "property": "C165",
   "status": "proved",
   "theorems": [
    "C165_checkpoint_tokens"
   ],
   "note": ""
  },
  {
   "property": "C166",
   "status": "proved",
   "theorems": [
    "C166_checkpoint_to_lines",
    "C166_quantized_to_lines"
   ],
   "note": ""
  },
  {
   "property": "C167",
   "status": "proved",
   "theorems": [
    "C167_only_regions_matter",
    "C167_trailing_bytes"
   ],
   "note": ""
  },
  {
   "property": "C168",
   "status": "proved",
   "theorems": [
    "C168_each_input_alone"
   ],
   "note": ""
  },
  {
   "property": "C169",
   "status": "proved",
   "theorems": [
    "C169_highest_scores",
    "C169_decoder_constant"
   ],
   "note": "exact real arithmetic; ties are broken as the sort routine does"
  },
  {
   "property": "C170",
   "status": "proved",
   "theorems": [
    "C170_key_biases"
   ],
   "note": "exact real arithmetic"
  },
  {
   "property": "C171",
   "status": "proved",
   "theorems": [
    "C171_constants"
   ],
   "note": "exact real arithmetic"
  },
  {
   "property": "C172",
   "status": "proved",
   "theorems": [
    "C172_tokenize_log",
    "C172_no_file",
    "C172_steps_exist"
   ],
   "note": "settings without lower-casing; messages about ICU errors are not modelled"
  },
  {
   "property": "C173",
   "status": "partial",
   "theorems": [
    "C173_defined_at_default_refuted",
    "C173_default_log"
   ],
   "note": "false as stated: an unknown remainder goes through printf as a format; C173_default_log gives the log and says exactly when the call is undefined"
  },
  {
   "property": "C174",
   "status": "proved",
   "theorems": [
    "C174_no_percent",
    "C174_errors_only"
   ],
   "note": ""
  },
  {
   "property": "C175",
   "status": "proved",
   "theorems": [
    "C175_eval_logging",
    "C175_eval_lm_logging"
   ],
   "note": ""
  },
  {
   "property": "C176",
   "status": "proved",
   "theorems": [
    "C176_without_model",
    "C176_default_log",
    "C176_gelu_never_refused"
   ],
   "note": ""
  },
  {
   "property": "C177",
   "status": "partial",
   "theorems": [
    "C177_refusals_reported_refuted",
    "C177_last_line_tells"
   ],
   "note": "false as stated: at the default level most refusals are silent, a null pointer at every level; the second sentence is proved for calls with all pointers (at DEBUG the last line is about the ggml context)"
  },
  {
   "property": "C178",
   "status": "proved",
   "theorems": [
    "C178_lm_default_log",
    "C178_lm_without_model"
   ],
   "note": ""
  },
  {
   "property": "C179",
   "status": "partial",
   "theorems": [
    "C179_refusal_defined_refuted",
    "C179_repeated_token_log"
   ],
   "note": "false as stated: a repeated token that is no printf format makes the call undefined at levels up to WARN; C179_repeated_token_log gives the exact log and condition"
  },
  {
   "property": "C180",
   "status": "proved",
   "theorems": [
    "C180_default_report",
    "C180_silent",
    "C180_reports_exist"
   ],
   "note": ""
  },
  {
   "property": "C181",
   "status": "partial",
   "theorems": [
    "C181_lookup_defined_refuted",
    "C181_lookup_log",
    "C181_id_log"
   ],
   "note": "false as stated: an unknown text that is no printf format is undefined at DEBUG and INFO; the theorems give value, log and condition for every level"
  },
  {
   "property": "C182",
   "status": "proved",
   "theorems": [
    "C182_eval_story",
    "C182_address"
   ],
   "note": ""
  },
  {
   "property": "C183",
   "status": "proved",
   "theorems": [
    "C183_lm_story"
   ],
   "note": ""
  },
  {
   "property": "C184",
   "status": "partial",
   "theorems": [
    "C184_sizes_reported_refuted",
    "C184_states_reported"
   ],
   "note": "false as stated: models of different hidden sizes write the same log (a comma makes the third format line the first argument); the number of hidden states is told, under the name hidden_dim"
  },
  {
   "property": "C185",
   "status": "proved",
   "theorems": [
    "C185_load_log",
    "C185_stories_exist"
   ],
   "note": ""
  },
  {
   "property": "C186",
   "status": "proved",
   "theorems": [
    "C186_same_result"
   ],
   "note": ""
  },
  {
   "property": "C187",
   "status": "partial",
   "theorems": [
    "C187_default_log",
    "C187_default_defined",
    "C187_refusal_reported_refuted"
   ],
   "note": "the exact list of lines is proved, with when writing it is undefined (only for a repeated token that is no printf format); the last part is false: unknown activations and model types and files that are no gguf are refused without a line, because formatted errors are written only from INFO on"
  },
  {
   "property": "C188",
   "status": "proved",
   "theorems": [
    "C188_last_line",
    "C188_finish_iff",
    "C188_path_refuted"
   ],
   "note": "C188_path_refuted shows that the condition on the path is needed"
  },
  {
   "property": "C189",
   "status": "proved",
   "theorems": [
    "C189_weights_log"
   ],
   "note": ""
  },
  {
   "property": "C190",
   "status": "partial",
   "theorems": [
    "C190_unused_lines",
    "C190_merges_listed",
    "C190_unused_removable_refuted"
   ],
   "note": "which tensors are listed is proved; that they are not needed is false: the merges of every RoBERTa model are listed as unused, and without them the file is refused"
  },
  {
   "property": "C191",
   "status": "partial",
   "theorems": [
    "C191_literal_refuted",
    "C191_first_line",
    "C191_path_undefined",
    "C191_name_undefined"
   ],
   "note": "true of the path if it has no % and no NUL; false for every text printf does not take as a format: loading is then undefined at INFO and below"
  },
  {
   "property": "C192",
   "status": "proved",
   "theorems": [
    "C192_success_log",
    "C192_other_results"
   ],
   "note": ""
  },
  {
   "property": "C193",
   "status": "partial",
   "theorems": [
    "C193_refusal_reported_refuted",
    "C193_refusal_default_log",
    "C193_refusal_told"
   ],
   "note": "false: at the default level a refusal writes nothing but the hint about too many tokens, and the call is defined; from INFO on the token that was not found is named, unless its text is no printf format"
  },
  {
   "property": "C194",
   "status": "proved",
   "theorems": [
    "C194_same_result"
   ],
   "note": ""
  },
  {
   "property": "C195",
   "status": "partial",
   "theorems": [
    "C195_refusal_reported_refuted",
    "C195_default_log"
   ],
   "note": "false: at the default level quantization writes what loading the input writes and nothing else, so failing to open the output or refusing a tensor leaves no trace"
  },
  {
   "property": "C196",
   "status": "proved",
   "theorems": [
    "C196_success_log"
   ],
   "note": "the texts of sizes in KiB and MiB and the lines of the histogram are parameters"
  },
  {
   "property": "C197",
   "status": "proved",
   "theorems": [
    "C197_last_line",
    "C197_path_refuted"
   ],
   "note": "C197_path_refuted shows that the condition on the paths is needed"
  },
  {
   "property": "C198",
   "status": "proved",
   "theorems": [
    "C198_file_shown"
   ],
   "note": "the texts of doubles are a parameter"
  },
  {
   "property": "C199",
   "status": "proved",
   "theorems": [
    "C199_roberta_load_log"
   ],
   "note": "log_of has no value where a message is no printf format, so the equivalence also says when the load is undefined"
  },
  {
   "property": "C200",
   "status": "proved",
   "theorems": [
    "C200_buffers"
   ],
   "note": "the kernels are parameters: chunk_ok (whole blocks) and widen_ok (four bytes of two)"
  },
  {
   "property": "C201",
   "status": "proved",
   "theorems": [
    "C201_histogram"
   ],
   "note": "what the kernels count is a parameter with hypotheses counters and counts_weights; the text of a share is a parameter"
  },
  {
   "property": "C202",
   "status": "proved",
   "theorems": [
    "C202_output",
    "C202_usage"
   ],
   "note": "the text of the bits per weight is a parameter"
  },
  {
   "property": "C203",
   "status": "proved",
   "theorems": [
    "C203_path_undefined",
    "C203_whole_log"
   ],
   "note": "C203_path_undefined for any messages of level DEBUG in between (with_debug), C203_whole_log for those of the code"
  },
  {
   "property": "C204",
   "status": "proved",
   "theorems": [
    "C204_success_text",
    "C204_same_run",
    "C204_most_probable_shown"
   ],
   "note": "lines of the log on stderr are left out; the text of a score is a parameter"
  },
  {
   "property": "C205",
   "status": "proved",
   "theorems": [
    "C205_arguments",
    "C205_messages",
    "C205_no_head"
   ],
   "note": "lines of the log on stderr are left out"
  },
  {
   "property": "C206",
   "status": "proved",
   "theorems": [
    "C206_unknown_words",
    "C206_no_model"
   ],
   "note": "the printf model knows only formats without conversions and %%; every other percent sign is UB"
  },
  {
   "property": "C207",
   "status": "proved",
   "theorems": [
    "C207_roberta"
   ],
   "note": "for models that are loaded"
  },
  {
   "property": "C208",
   "status": "proved",
   "theorems": [
    "C208_load",
    "C208_load_log",
    "C208_quantize"
   ],
   "note": "the result of init_gg is taken to be made in place (copy elision)"
  },
  {
   "property": "C209",
   "status": "proved",
   "theorems": [
    "C209_load_defined",
    "C209_quant_undefined"
   ],
   "note": "names are C strings (no NUL)"
  },
  {
   "property": "C210",
   "status": "proved",
   "theorems": [
    "C210_dump"
   ],
   "note": "for names without percent sign"
  },
  {
   "property": "C211",
   "status": "proved",
   "theorems": [
    "C211_load",
    "C211_quantize"
   ],
   "note": "about the messages, in the order in which they are written"
  },
  {
   "property": "C212",
   "status": "proved",
   "theorems": [
    "C212_encode_takes",
    "C212_predict_takes"
   ],
   "note": "for calls that are defined"
  },
  {
   "property": "C213",
   "status": "proved",
   "theorems": [
    "C213_tokenize",
    "C213_log"
   ],
   "note": "the log without these messages is C192 and C193"
  },
  {
   "property": "C214",
   "status": "proved",
   "theorems": [
    "C214_subtexts",
    "C214_prompt_is_format"
   ],
   "note": "prompts with a NUL, which the log cuts there, are left out"
  },
  {
   "property": "C215",
   "status": "proved",
   "theorems": [
    "C215_merges",
    "C215_count",
    "C215_cached"
   ],
   "note": "about the messages; what a text with a percent sign does to the log is C214"
  },
  {
   "property": "C216",
   "status": "proved",
   "theorems": [
    "C216_no_percent_defined"
   ],
   "note": "for calls that return tokens; what the report of a refusal may hold is C193"
  },
  {
   "property": "C217",
   "status": "proved",
   "theorems": [
    "C217_shapes_ignored"
   ],
   "note": "what evaluation then does with such a weight is C100"
  },
  {
   "property": "C218",
   "status": "proved",
   "theorems": [
    "C218_order"
   ],
   "note": "a file with two tensors of one name is outside of this"
  },
  {
   "property": "C219",
   "status": "proved",
   "theorems": [
    "C219_first_counts"
   ],
   "note": "a later tensor is read with the size of the first one of its name; that this lies in the file is part of the hypotheses"
  }
 ]
}