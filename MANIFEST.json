{
 "claims": [
  {
   "property": "C01",
   "status": "proved",
   "theorems": [
    "C01_rune_boundary",
    "C01_never_panics"
   ],
   "note": ""
  },
  {
   "property": "C02",
   "status": "partial",
   "theorems": [
    "C02_convert_exact",
    "C02_convert_iff",
    "C02_convert_refuted",
    "C02_convert_panics_refuted",
    "C02_convert_partial"
   ],
   "note": "Refuted in general (byte indices are used as rune indices; empty range at the end panics); proved for text whose characters except possibly the last are ASCII. C02_convert_exact and C02_convert_iff give the exact answer and the exact condition."
  },
  {
   "property": "C03",
   "status": "proved",
   "theorems": [
    "C03_from_string"
   ],
   "note": ""
  },
  {
   "property": "C04",
   "status": "partial",
   "theorems": [
    "C04_append_refuted",
    "C04_history_partial",
    "C04_history_aligned_partial"
   ],
   "note": "Refuted for Append on text with multi-byte characters (a rune index is taken for a byte index); proved for all histories with the side conditions of SpecHist.edit on Append, Replace and TransformRange. C92: what survives without them. C11_append_exact and C96_filter: Append and Filter in every case."
  },
  {
   "property": "C05",
   "status": "proved",
   "theorems": [
    "C05_original_untouched"
   ],
   "note": ""
  },
  {
   "property": "C06",
   "status": "proved",
   "theorems": [
    "C06_transform_range",
    "C06_transform_overrun"
   ],
   "note": ""
  },
  {
   "property": "C07",
   "status": "proved",
   "theorems": [
    "C07_map"
   ],
   "note": ""
  },
  {
   "property": "C08",
   "status": "partial",
   "theorems": [
    "C08_filter_iff",
    "C08_filter_refuted",
    "C08_filter_wrong_span_refuted",
    "C08_filter_partial",
    "C08_filter_text_partial"
   ],
   "note": "Refuted if multi-byte characters are removed at the start (rune count taken for a byte offset: panic or wrong spans); proved if what is removed at the start is ASCII; the resulting text is right whenever Filter returns. C08_filter_iff: on a string just made this condition is also necessary. C96_filter: the outcome in every case."
  },
  {
   "property": "C09",
   "status": "partial",
   "theorems": [
    "C09_trim_iff",
    "C09_trim_refuted",
    "C09_trim_partial",
    "C09_trim_text_partial",
    "C09_trimmed_exists"
   ],
   "note": "Refuted for multi-byte leading white space (same cause as C08); proved for ASCII leading white space; the resulting text is right whenever Trim returns. C09_trim_iff: on a string just made this condition is also necessary. C96_trim: the outcome in every case."
  },
  {
   "property": "C10",
   "status": "partial",
   "theorems": [
    "C10_prepend_nothing",
    "C10_prepend_iff",
    "C10_prepend_refuted",
    "C10_prepend_partial",
    "C10_prepend_empty_string"
   ],
   "note": "Refuted for Prepend of the empty string (first span becomes (0, 0)); proved for every non-empty prepended text. C10_prepend_iff and C10_prepend_nothing: the exact condition and result."
  },
  {
   "property": "C11",
   "status": "partial",
   "theorems": [
    "C11_append_iff",
    "C11_append_refuted",
    "C11_append_wrong_text_refuted",
    "C11_append_partial",
    "C11_append_empty_string",
    "C11_append_exact",
    "C11_append_panics_iff"
   ],
   "note": "Refuted on text with multi-byte characters (panic or wrong text); proved if all characters but the last are ASCII. C11_append_iff: in all other cases even the text is wrong. C11_append_exact, C11_append_panics_iff: the outcome in every case."
  },
  {
   "property": "C12",
   "status": "proved",
   "theorems": [
    "C12_replace",
    "C12_replace_text",
    "C12_replace_error",
    "C12_replace_exact",
    "C12_replace_chars"
   ],
   "note": "C12_replace_exact: which span the replacement of a match carries, in every case."
  },
  {
   "property": "C13",
   "status": "proved",
   "theorems": [
    "C13_slice",
    "C13_reachable_wf"
   ],
   "note": ""
  },
  {
   "property": "C14",
   "status": "proved",
   "theorems": [
    "C14_slice_rejects",
    "C14_slice_out_of_bounds",
    "C14_slice_degenerate",
    "C14_slice_original"
   ],
   "note": "With C13, what Slice does with every range of a well-formed string: also empty ranges (which may panic), reversed ones, and original ranges."
  },
  {
   "property": "C15",
   "status": "partial",
   "theorems": [
    "C15_split_refuted",
    "C15_split_text_partial",
    "C15_split_succeeds_partial"
   ],
   "note": "Refuted: an empty capture past the end of the original string panics. Proved: either that happens, or Split succeeds and keeps exactly the text."
  },
  {
   "property": "C16",
   "status": "proved",
   "theorems": [
    "C16_split_groups",
    "C16_groups_unique"
   ],
   "note": "Including uniqueness of the grouping; the only other outcome is the panic of C15."
  },
  {
   "property": "C17",
   "status": "proved",
   "theorems": [
    "C17_split_offsets"
   ],
   "note": ""
  },
  {
   "property": "C18",
   "status": "partial",
   "theorems": [
    "C18_recombine_iff",
    "C18_recombine_refuted",
    "C18_recombine_twice_refuted",
    "C18_recombine_partial",
    "C18_tiled_partial"
   ],
   "note": "Refuted for edited strings (removed or duplicated origin); proved for strings whose spans tile the original: fresh strings and anything Map makes of them. C18_recombine_iff: that is exactly where all patterns recombine."
  },
  {
   "property": "C19",
   "status": "proved",
   "theorems": [
    "C19_original_alignments",
    "C19_empty_panics",
    "C19_panics_iff"
   ],
   "note": "For non-empty strings, as stated; on empty ones it is proved to panic."
  },
  {
   "property": "C20",
   "status": "proved",
   "theorems": [
    "C20_to_original",
    "C20_to_original_degenerate"
   ],
   "note": ""
  },
  {
   "property": "C21",
   "status": "proved",
   "theorems": [
    "C21_to_normalized",
    "C21_dead_case",
    "C21_round_trip_original",
    "C21_round_trip_normalized"
   ],
   "note": ""
  },
  {
   "property": "C22",
   "status": "partial",
   "theorems": [
    "C22_range_requests_refuted",
    "C22_not_reported_refuted",
    "C22_get_range_partial",
    "C22_get_original_range_partial"
   ],
   "note": "Refuted: out-of-range requests of the string's own kind panic or are handed back. Proved: the exact set of requests that panic, and what the others return."
  },
  {
   "property": "C23",
   "status": "proved",
   "theorems": [
    "C23_func_pattern",
    "C23_func_pattern_covers",
    "C23_segmentation_unique",
    "C23_matches",
    "C23_rune_pattern"
   ],
   "note": ""
  },
  {
   "property": "C24",
   "status": "proved",
   "theorems": [
    "C24_regexp_pattern",
    "C24_regexp_pattern_boundaries",
    "C24_regexp_pattern_empty"
   ],
   "note": "For every engine answer meeting the stated contract of package regexp."
  },
  {
   "property": "C25",
   "status": "proved",
   "theorems": [
    "C25_regexp2_pattern",
    "C25_regexp2_pattern_error"
   ],
   "note": "For every engine answer meeting the stated contract of regexp2."
  },
  {
   "property": "C26",
   "status": "partial",
   "theorems": [
    "C26_empty_pattern_iff",
    "C26_string_pattern_refuted",
    "C26_string_pattern_partial",
    "C26_empty_pattern_partial"
   ],
   "note": "Refuted for the empty pattern on non-ASCII text; proved for every non-empty pattern and for the empty one on ASCII text. C26_empty_pattern_iff: for the empty pattern, right exactly on ASCII text."
  },
  {
   "property": "C27",
   "status": "proved",
   "theorems": [
    "C27_invert",
    "C27_invert_twice",
    "C27_invert_ranges",
    "C27_split_complement"
   ],
   "note": ""
  },
  {
   "property": "C28",
   "status": "proved",
   "theorems": [
    "C28_add_terms",
    "C28_stable"
   ],
   "note": ""
  },
  {
   "property": "C29",
   "status": "proved",
   "theorems": [
    "C29_json_round_trip",
    "C29_orders_exist",
    "C29_json_any"
   ],
   "note": "For files with distinct IDs, as stated; also what remains without that."
  },
  {
   "property": "C30",
   "status": "partial",
   "theorems": [
    "C30_add_after_load_refuted",
    "C30_add_after_null_refuted",
    "C30_add_after_load_partial",
    "C30_add_one_exact",
    "C30_add_many_exact"
   ],
   "note": "Refuted: sparse IDs collide, and the JSON text null makes AddTerm panic. Proved for files with distinct IDs below the number of entries, and the exact condition for any sequence of AddTerm (C30_add_many_exact)."
  },
  {
   "property": "C31",
   "status": "proved",
   "theorems": [
    "C31_merge_ranks",
    "C31_lines"
   ],
   "note": ""
  },
  {
   "property": "C32",
   "status": "partial",
   "theorems": [
    "C32_merge_errors_refuted",
    "C32_merge_errors_partial",
    "C32_no_prefix_no_panic",
    "C32_long_line",
    "C32_longest_line"
   ],
   "note": "Refuted: a prefix length longer than the right term panics. Proved: exactly one of success, error at the first bad line, panic at the first too short one, and the scanner giving up at a line of 64 KiB; no panic for prefix length 0."
  },
  {
   "property": "C33",
   "status": "proved",
   "theorems": [
    "C33_priority_queue"
   ],
   "note": ""
  },
  {
   "property": "C34",
   "status": "proved",
   "theorems": [
    "C34_textbook",
    "C34_textbook_unique",
    "C34_tokenize"
   ],
   "note": "Also for Tokenize with merges loaded from a file; an Example shows that the condition on sizes is needed. With dropout: C97."
  },
  {
   "property": "C35",
   "status": "proved",
   "theorems": [
    "C35_merges_only",
    "C35_tokenize_total"
   ],
   "note": ""
  },
  {
   "property": "C36",
   "status": "proved",
   "theorems": [
    "C36_saturates"
   ],
   "note": ""
  },
  {
   "property": "C37",
   "status": "proved",
   "theorems": [
    "C37_dropout_one",
    "C37_tokenize",
    "C37_decisions",
    "C37_nothing_dropped"
   ],
   "note": ""
  },
  {
   "property": "C38",
   "status": "partial",
   "theorems": [
    "C38_offsets_refuted",
    "C38_offsets_partial",
    "C38_known_exact",
    "C38_offsets_iff"
   ],
   "note": "Refuted without unknown token: unknown characters are left out and later offsets shift. Proved if an unknown token is configured or all characters are known. C38_offsets_iff: wrong in all other cases; C38_known_exact: the exact end."
  },
  {
   "property": "C39",
   "status": "proved",
   "theorems": [
    "C39_faithful"
   ],
   "note": ""
  },
  {
   "property": "C40",
   "status": "partial",
   "theorems": [
    "C40_prefix_refuted",
    "C40_prefix_partial",
    "C40_prefix_iff"
   ],
   "note": "Refuted: the prefix is put on the first character and on no other. Proved: what is looked up instead; it agrees with the documentation only for an empty prefix. C40_prefix_iff."
  },
  {
   "property": "C41",
   "status": "proved",
   "theorems": [
    "C41_unknown"
   ],
   "note": ""
  },
  {
   "property": "C42",
   "status": "proved",
   "theorems": [
    "C42_cache_transparent",
    "C42_dropout",
    "C42_stub"
   ],
   "note": "For the cache stub of the repository and for every cache that returns only what was stored under the key."
  },
  {
   "property": "C43",
   "status": "proved",
   "theorems": [
    "C43_tokens_tile"
   ],
   "note": ""
  },
  {
   "property": "C44",
   "status": "partial",
   "theorems": [
    "C44_greedy_iff",
    "C44_greedy_over_tried_ends",
    "C44_greedy_partial",
    "C44_greedy_unique",
    "C44_greedy_refuted"
   ],
   "note": "Refuted for words with three-byte characters (the backwards search steps by one or two bytes and misses their boundaries, e.g. \u91ce\u53e3). Proved if no character but the first takes three bytes; and, for all byte strings, the exact greedy rule that is computed. C44_greedy_iff: for every other word there is a vocabulary that refutes it."
  },
  {
   "property": "C45",
   "status": "proved",
   "theorems": [
    "C45_error_iff",
    "C45_too_long"
   ],
   "note": "What 'no segmentation found' means is given by tried_toks, see C44."
  },
  {
   "property": "C46",
   "status": "proved",
   "theorems": [
    "C46_boundaries"
   ],
   "note": ""
  },
  {
   "property": "C47",
   "status": "proved",
   "theorems": [
    "C47_parallel_arrays"
   ],
   "note": ""
  },
  {
   "property": "C48",
   "status": "proved",
   "theorems": [
    "C48_recording_is_faithful",
    "C48_split"
   ],
   "note": "Calls are recorded by a wrapper around the function argument that is proved not to change anything."
  },
  {
   "property": "C49",
   "status": "proved",
   "theorems": [
    "C49_failed_split",
    "C49_failed_split_unchanged",
    "C49_recording_is_faithful",
    "C49_failed_normalize",
    "C49_normalize",
    "C49_failed_tokenize"
   ],
   "note": ""
  },
  {
   "property": "C50",
   "status": "proved",
   "theorems": [
    "C50_recording_is_faithful",
    "C50_tokenize",
    "C50_resume"
   ],
   "note": ""
  },
  {
   "property": "C51",
   "status": "proved",
   "theorems": [
    "C51_fails_iff",
    "C51_contents"
   ],
   "note": ""
  },
  {
   "property": "C52",
   "status": "proved",
   "theorems": [
    "C52_pretokenizers",
    "C52_offsets",
    "C52_every_token"
   ],
   "note": ""
  },
  {
   "property": "C53",
   "status": "proved",
   "theorems": [
    "C53_normalized_splits",
    "C53_original_splits"
   ],
   "note": ""
  },
  {
   "property": "C54",
   "status": "proved",
   "theorems": [
    "C54_reported",
    "C54_whitespace_split",
    "C54_rune_delimiter",
    "C54_unique"
   ],
   "note": ""
  },
  {
   "property": "C55",
   "status": "proved",
   "theorems": [
    "C55_bert_pretokenizer"
   ],
   "note": "For every punctuation table."
  },
  {
   "property": "C56",
   "status": "proved",
   "theorems": [
    "C56_metaspace",
    "C56_texts",
    "C56_unique"
   ],
   "note": "Nothing is prepended to the empty text. A replacement that is no Unicode scalar value is written as U+FFFD and never found."
  },
  {
   "property": "C57",
   "status": "proved",
   "theorems": [
    "C57_table",
    "C57_injective",
    "C57_range",
    "C57_decodable"
   ],
   "note": ""
  },
  {
   "property": "C58",
   "status": "partial",
   "theorems": [
    "C58_byte_level_partial",
    "C58_empty",
    "C58_lossless_partial",
    "C58_any_answers_refuted",
    "C58_panics_iff",
    "C58_default_regexp"
   ],
   "note": "False as stated: with the prefix space, an empty match beyond the length of the original text makes Split panic (refuted with a witness). Proved for all answers without such a match, and without condition for the default regexp as read in Regex.v. C58_panics_iff: such a match is the only cause of a panic."
  },
  {
   "property": "C59",
   "status": "proved",
   "theorems": [
    "C59_any_answers",
    "C59_empty",
    "C59_error",
    "C59_default_regexp"
   ],
   "note": "The default regexp as read in Regex.v, for every word and space class."
  },
  {
   "property": "C60",
   "status": "partial",
   "theorems": [
    "C60_clean_iff",
    "C60_accents_iff",
    "C60_bert_refuted",
    "C60_accents_refuted",
    "C60_text_partial",
    "C60_bert_partial",
    "C60_first_kept_partial"
   ],
   "note": "False as stated: Filter panics if multi-byte characters are removed at the front (refuted with a byte order mark and with a combining mark). Proved: the text is right whenever Normalize returns; text and spans without panic if what is removed at the front is ASCII, in particular if the first character is kept. C60_clean_iff: with cleaning and without accent removal that condition is also necessary on a string just made. C60_accents_iff: the same with accent removal, given that what cleaning removes at the front is ASCII. C96_bert: the outcome in every case."
  },
  {
   "property": "C61",
   "status": "partial",
   "theorems": [
    "C61_table_refuted",
    "C61_table_partial"
   ],
   "note": "Refuted: U+2B820..U+2B91F are missing. Proved: nothing else differs."
  },
  {
   "property": "C62",
   "status": "proved",
   "theorems": [
    "C62_success",
    "C62_failure",
    "C62_panic",
    "C62_flatten"
   ],
   "note": ""
  },
  {
   "property": "C63",
   "status": "proved",
   "theorems": [
    "C63_cuts",
    "C63_wordpiece"
   ],
   "note": "The client program that joins the layers is in SpecEnd (the repository has none). Terms and prefix must be valid UTF-8; C63_invalid_terms shows what happens otherwise."
  },
  {
   "property": "C64",
   "status": "proved",
   "theorems": [
    "C64_bpe",
    "C64_offsets"
   ],
   "note": "C64_bpe under C39's hypotheses; C64_offsets: offsets for any model with an unknown token."
  },
  {
   "property": "C65",
   "status": "partial",
   "theorems": [
    "C65_from_string_refuted",
    "C65_from_string_partial",
    "C65_func_pattern_refuted",
    "C65_func_pattern_partial",
    "C65_func_pattern_iff",
    "C65_regexp2_refuted",
    "C65_regexp2_iff",
    "C65_string_pattern",
    "C65_string_pattern_empty_iff",
    "C65_regexp_pattern",
    "C65_prepend_refuted",
    "C65_prepend_partial",
    "C65_append_partial",
    "C65_append_text_iff",
    "C65_map_refuted",
    "C65_map_partial",
    "C65_fresh",
    "C65_transform",
    "C65_filter_partial",
    "C65_trim_partial",
    "C65_filter_front_partial",
    "C65_filter_refuted",
    "C65_bert_partial",
    "C65_split_refuted"
   ],
   "note": "False as stated: refuted for FromString, function patterns, regexp2 patterns, Prepend, Map and splitting. Proved: the exact conditions for FromString, Prepend, Append (C65_append_partial, C65_append_text_iff) and Map, and for function patterns and regexp2 patterns (C65_func_pattern_iff, C65_regexp2_iff); C65_string_pattern, C65_regexp_pattern: these keep the contract on all bytes (the empty string pattern where bytes are characters); none of these panics except Prepend, on the texts given. C65_transform, C65_filter_partial, C65_trim_partial, C65_bert_partial: Transform, Filter, Trim and BERT normalization do what they do to the string as Go reads it, if what is removed in front is whole characters (C65_filter_front_partial: or single bytes); 2 alignments too many per undecodable byte stay. Filter may panic otherwise (C65_filter_refuted). C100: whole encodings of such strings."
  },
  {
   "property": "C66",
   "status": "partial",
   "theorems": [
    "C66_strip_iff",
    "C66_lowercase",
    "C66_strip_partial",
    "C66_strip_refuted"
   ],
   "note": "Lower-casing proved; Strip as in C09: refuted for multi-byte leading white space, proved for ASCII leading white space. C66_strip_iff: necessary on a string just made. C96_strip: the outcome in every case."
  },
  {
   "property": "C67",
   "status": "proved",
   "theorems": [
    "C67_encoding",
    "C67_spells",
    "C67_decodable"
   ],
   "note": "Regexp matching as in C58_default_regexp (the reading of the default regexp in Regex.v; the character classes are arbitrary)."
  },
  {
   "property": "C68",
   "status": "partial",
   "theorems": [
    "C68_wordpiece",
    "C68_bpe",
    "C68_origin",
    "C68_bert_partial",
    "C68_bert_refuted"
   ],
   "note": "Proved for any well-formed edited string (C68_wordpiece, C68_bpe). With BertNormalizer in front only where it does not panic (C60): characters removed at the front must be ASCII; refuted otherwise. C99_wordpiece has the exact statement, for any sequence of normalizers."
  },
  {
   "property": "C69",
   "status": "proved",
   "theorems": [
    "C69_bpe_parts"
   ],
   "note": "Hypotheses of C39 and no dropout."
  },
  {
   "property": "C70",
   "status": "proved",
   "theorems": [
    "C70_wordpiece_start",
    "C70_wordpiece_start_text"
   ],
   "note": ""
  },
  {
   "property": "C71",
   "status": "partial",
   "theorems": [
    "C71_filter",
    "C71_strip",
    "C71_lowercase",
    "C71_bert_refuted",
    "C71_bert_partial",
    "C71_bert_chinese"
   ],
   "note": "Proved for Filter, Strip, lower-casing (iff the table settles in one step) and BERT without the option for Chinese characters. With it refuted: each pass adds spaces around Chinese characters; C71_bert_chinese: that is all a second pass does, so it changes nothing iff there are none."
  },
  {
   "property": "C72",
   "status": "partial",
   "theorems": [
    "C72_encoding",
    "C72_spells",
    "C72_decodable",
    "C72_decodable_refuted"
   ],
   "note": "Lossless and gapless for known characters, as C39. Reading the text back is refuted if the meta symbol occurs in it (C72_decodable_refuted) and proved if not (C72_decodable)."
  },
  {
   "property": "C73",
   "status": "proved",
   "theorems": [
    "C73_join",
    "C73_models",
    "C73_wordpiece",
    "C73_bpe",
    "C73_bpe_no_dropout",
    "C73_elsewhere_refuted"
   ],
   "note": "C73_models: WordPiece and BPE satisfy the hypothesis of C73_join. C73_elsewhere_refuted: it does not hold at characters that are not delimiters."
  },
  {
   "property": "C74",
   "status": "proved",
   "theorems": [
    "C74_whitespace_split",
    "C74_rune_delimiter",
    "C74_bert",
    "C74_whitespace",
    "C74_metaspace",
    "C74_byte_level_refuted"
   ],
   "note": "For the five pre-tokenizers named; C74_byte_level_refuted for the byte-level one."
  },
  {
   "property": "C75",
   "status": "proved",
   "theorems": [
    "C75_merge_file",
    "C75_bpe",
    "C75_wordpiece",
    "C75_encoding_bpe",
    "C75_encoding_wordpiece",
    "C75_pretokenizers",
    "C75_same_terms",
    "C75_any_order",
    "C75_old_merges_refuted"
   ],
   "note": "C75_old_merges_refuted for the merges of the old IDs."
  },
  {
   "property": "C76",
   "status": "proved",
   "theorems": [
    "C76_split",
    "C76_needed",
    "C76_whitespace_split",
    "C76_rune_delimiter",
    "C76_bert",
    "C76_encoding",
    "C76_encoding_bert",
    "C76_all_maps_refuted"
   ],
   "note": "C76_all_maps_refuted: without the condition."
  },
  {
   "property": "C77",
   "status": "proved",
   "theorems": [
    "C77_stages"
   ],
   "note": ""
  },
  {
   "property": "C78",
   "status": "proved",
   "theorems": [
    "C78_bpe_orderly",
    "C78_wordpiece_orderly",
    "C78_engines_sound",
    "C78_in_turn",
    "C78_encode",
    "C78_pieces",
    "C78_disjoint_refuted"
   ],
   "note": "C78_disjoint_refuted: two pieces with the same offsets."
  },
  {
   "property": "C79",
   "status": "proved",
   "theorems": [
    "C79_count",
    "C79_linear",
    "C79_dropout",
    "C79_tokenize"
   ],
   "note": "The linear bound is attained (C79_example). Steps are iterations; the logarithmic cost of a heap operation is not counted."
  },
  {
   "property": "C80",
   "status": "proved",
   "theorems": [
    "C80_merges",
    "C80_bpe",
    "C80_extend",
    "C80_wordpiece",
    "C80_wordpiece_add"
   ],
   "note": ""
  },
  {
   "property": "C81",
   "status": "proved",
   "theorems": [
    "C81_reads",
    "C81_unambiguous",
    "C81_rejects",
    "C81_load",
    "C81_written",
    "C81_layout"
   ],
   "note": "Proved as stated (C81_reads, C81_rejects, C81_load, C81_unambiguous, C81_written, C81_layout). encoding/json is the Go standard library; its behaviour is modelled in Json.v."
  },
  {
   "property": "C82",
   "status": "proved",
   "theorems": [
    "C82_bpe",
    "C82_wordpiece"
   ],
   "note": ""
  },
  {
   "property": "C83",
   "status": "partial",
   "theorems": [
    "C83_ids_refuted",
    "C83_terms_refuted",
    "C83_ids_partial",
    "C83_terms_partial",
    "C83_written_partial"
   ],
   "note": "Both halves are false: null gives the ID 0 (C83_ids_refuted), and names that are invalid UTF-8 are conflated (C83_terms_refuted). Proved instead: if the word null does not occur in the file, every ID is an integer literal of the file (C83_ids_partial); if the file is UTF-8 without backslashes, every term is written between quotes byte for byte (C83_terms_partial); for every file, each term is denoted by a string of the file and followed by its ID or, if that is 0, by null (C83_written_partial)."
  },
  {
   "property": "C84",
   "status": "partial",
   "theorems": [
    "C84_documented_iff",
    "C84_documented_refuted"
   ],
   "note": "False: \" a\" becomes two meta characters and a, a tab stays (C84_documented_refuted). Proved: the exact condition under which the documented text is produced (C84_documented_iff)."
  },
  {
   "property": "C85",
   "status": "partial",
   "theorems": [
    "C85_bpe_iff",
    "C85_bpe_default",
    "C85_bpe_refuted",
    "C85_wordpiece",
    "C85_wordpiece_default"
   ],
   "note": "Proved for WordPiece (C85_wordpiece, C85_wordpiece_default). Refuted for BPE: without unknown token, a text without known characters gives no tokens and no error (C85_bpe_refuted), in particular every text with NewDefault (C85_bpe_default); C85_bpe_iff: only then."
  },
  {
   "property": "C86",
   "status": "proved",
   "theorems": [
    "C86_map_map",
    "C86_map_id",
    "C86_prepend",
    "C86_append",
    "C86_trim",
    "C86_slice_slice",
    "C86_slice_map"
   ],
   "note": "Append and Trim under the exact conditions of C11 and C09, outside which the operations themselves are wrong."
  },
  {
   "property": "C87",
   "status": "partial",
   "theorems": [
    "C87_filter_refuted",
    "C87_filter_partial",
    "C87_map_filter_partial",
    "C87_map_filter_refuted",
    "C87_filter_iff",
    "C87_map_filter_iff"
   ],
   "note": "False: C87_filter_refuted, C87_map_filter_refuted. Proved whenever the characters removed in front are ASCII (C87_filter_partial, C87_map_filter_partial). C87_filter_iff, C87_map_filter_iff: the exact conditions, in terms of what Filter does (C96_filter)."
  },
  {
   "property": "C88",
   "status": "partial",
   "theorems": [
    "C88_bpe_partial",
    "C88_bpe_refuted",
    "C88_wordpiece_partial",
    "C88_wordpiece_refuted",
    "C88_bpe_legible",
    "C88_bpe_iff",
    "C88_bpe_without_unknown_iff",
    "C88_bpe_apart_refuted",
    "C88_wordpiece_iff"
   ],
   "note": "False when unknown characters are left out or replaced (C88_bpe_refuted, C88_wordpiece_refuted). Proved for BPE if all characters are known (C88_bpe_partial) and for WordPiece for every answer but the lone unknown token (C88_wordpiece_partial). Exactly: C88_bpe_iff (the same IDs iff the texts are the same up to unknown characters, if no merge involves the unknown token; C88_bpe_apart_refuted if one does), C88_bpe_without_unknown_iff, C88_wordpiece_iff."
  },
  {
   "property": "C89",
   "status": "partial",
   "theorems": [
    "C89_words_partial",
    "C89_bert",
    "C89_words_refuted",
    "C89_bpe_refuted",
    "C89_bpe_shown",
    "C89_byte_level",
    "C89_byte_level_prefix",
    "C89_metaspace"
   ],
   "note": "Proved: BERT pieces with WordPiece (C89_bert), byte level without space in front (C89_byte_level) and exactly up to that space with it (C89_byte_level_prefix), metaspace without the meta character in the text (C89_metaspace), delimited pieces if no word starts with the prefix (C89_words_partial). False for words that start with the prefix (C89_words_refuted) and for BPE over delimited pieces (C89_bpe_refuted), where the IDs determine the text outside the delimiters if all its characters are known (C89_bpe_shown)."
  },
  {
   "property": "C90",
   "status": "proved",
   "theorems": [
    "C90_split",
    "C90_normalize",
    "C90_tokenize",
    "C90_library",
    "C90_programs",
    "C90_reading",
    "C90_shared_refuted",
    "C90_returned_twice_refuted"
   ],
   "note": "Simulation of the store by the values of the other files; the assumption made there (no two splits share a pointer) is discharged for the library. False for functions that return a pointer twice (C90_shared_refuted, C90_returned_twice_refuted)."
  },
  {
   "property": "C91",
   "status": "proved",
   "theorems": [
    "C91_again",
    "C91_cutting",
    "C91_byte_level",
    "C91_metaspace",
    "C91_other_refuted"
   ],
   "note": "C91_again; what is left of the caller's string is stated exactly (C91_cutting, C91_byte_level, C91_metaspace). With another pre-tokenizer the second time it is false (C91_other_refuted)."
  },
  {
   "property": "C92",
   "status": "proved",
   "theorems": [
    "C92_history",
    "C92_more",
    "C92_original_alignments",
    "C92_to_original",
    "C92_to_normalized",
    "C92_encoding_offsets",
    "C92_transform_range_refuted"
   ],
   "note": "No side condition on Append and Replace (cf. C04, C07), normalized text not necessarily UTF-8. Without the condition on TransformRange it is false (C92_transform_range_refuted)."
  },
  {
   "property": "C93",
   "status": "proved",
   "theorems": [
    "C93_same",
    "C93_bound",
    "C93_limit",
    "C93_tokens",
    "C93_worst",
    "C93_exact"
   ],
   "note": "About the model with a counter, which without the counter is the model (C93_same). C93_exact: the number for ASCII words, and which take n(n+1)/2."
  },
  {
   "property": "C94",
   "status": "proved",
   "theorems": [
    "C94_encode",
    "C94_prefix_free",
    "C94_decode",
    "C94_range",
    "C94_valid",
    "C94_slice",
    "C94_index",
    "C94_white_space"
   ],
   "note": "About Go's strings rather than /repo: pins down the definitions in which most other properties are stated."
  },
  {
   "property": "C95",
   "status": "proved",
   "theorems": [
    "C95_cuts",
    "C95_default",
    "C95_unique"
   ],
   "note": "The regular expression engine (dlclark/regexp2) is outside /repo: Regex.v models backtracking with greedy repetition."
  },
  {
   "property": "C96",
   "status": "proved",
   "theorems": [
    "C96_filter",
    "C96_filter_panics_iff",
    "C96_filter_ascii",
    "C96_mark",
    "C96_trim",
    "C96_trim_panics_iff",
    "C96_strip",
    "C96_bert",
    "C96_bert_mark"
   ],
   "note": "Says exactly what happens where C08, C09, C60 and C66 do not hold."
  },
  {
   "property": "C97",
   "status": "proved",
   "theorems": [
    "C97_dropout",
    "C97_left_over",
    "C97_draws",
    "C97_no_drops",
    "C97_determined",
    "C97_tokenize"
   ],
   "note": "C97_no_drops: without drops this is the textbook procedure of C34. C97_determined: where no two merges share a rank, as for merges from a file, the draws determine how many are spent and what comes out; with shared ranks the specification leaves ties open. Requests for merges that are no longer possible are tracked by rank and start byte."
  },
  {
   "property": "C98",
   "status": "proved",
   "theorems": [
    "C98_program",
    "C98_equal_iff",
    "C98_normalizer",
    "C98_pretokenized"
   ],
   "note": "Append and Replace by other patterns are not in the language of programs: Append may leave invalid UTF-8 (C11_append_exact); C12_replace_exact gives Replace for any pattern that covers the text."
  },
  {
   "property": "C99",
   "status": "proved",
   "theorems": [
    "C99_wordpiece",
    "C99_bpe",
    "C99_byte_level",
    "C99_metaspace"
   ],
   "note": "Contains the case C68_bert_partial leaves out. For BPE under the hypotheses of C39 (known characters, no affixes)."
  },
  {
   "property": "C100",
   "status": "partial",
   "theorems": [
    "C100_bpe_reads",
    "C100_bpe",
    "C100_bpe_quotes",
    "C100_places",
    "C100_wordpiece",
    "C100_wordpiece_valid_part",
    "C100_wordpiece_refuted"
   ],
   "note": "No panic, groups and quotations proved (C100_bpe, C100_bpe_quotes, C100_wordpiece). The offsets are false: an entry whose last byte is undecodable ends two bytes too late (C100_bpe gives the exact offsets, C100_places: right iff no entry ends with an undecodable byte); with WordPiece they are right in front of the first such byte (C100_wordpiece_valid_part) and false behind it (C100_wordpiece_refuted)."
  },
  {
   "property": "C101",
   "status": "proved",
   "theorems": [
    "C101_passes",
    "C101_tokenize",
    "C101_order_refuted"
   ],
   "note": "C101_passes for MergeAll and C101_tokenize for whole files and texts. The condition on the order is needed: C101_order_refuted."
  },
  {
   "property": "C102",
   "status": "proved",
   "theorems": [
    "C102_merge_all",
    "C102_tokenize",
    "C102_front_refuted"
   ],
   "note": "C102_merge_all, C102_tokenize. For lines added in front it is false (C102_front_refuted)."
  },
  {
   "property": "C103",
   "status": "proved",
   "theorems": [
    "C103_merge_all",
    "C103_tokenize",
    "C103_without_dropout"
   ],
   "note": "C103_merge_all, C103_tokenize, C103_without_dropout. For dropout 1 and more see C37, for 0 and less C34; C97 says which answer belongs to which draws."
  },
  {
   "property": "C104",
   "status": "proved",
   "theorems": [
    "C104_wordpiece",
    "C104_bpe_iff",
    "C104_bpe_refuted"
   ],
   "note": "C104_wordpiece, C104_bpe_iff; C104_bpe_refuted: not every term that the merges file makes."
  },
  {
   "property": "C105",
   "status": "partial",
   "theorems": [
    "C105_all_characters_partial",
    "C105_all_characters_refuted",
    "C105_all_characters_iff",
    "C105_more_terms_refuted"
   ],
   "note": "C105_all_characters_partial excludes words with three-byte characters after the first, for which it is refuted (C105_all_characters_refuted, the defect of C44); C105_all_characters_iff: for each of them. C105_more_terms_refuted: more terms."
  },
  {
   "property": "C106",
   "status": "partial",
   "theorems": [
    "C106_again",
    "C106_links",
    "C106_second_partial",
    "C106_second_iff",
    "C106_second_refuted"
   ],
   "note": "C106_again (the second time, same merges, no dropout), C106_links (exactly which places are left, and that the word is as Add makes it iff only the last symbol is merged), C106_second_partial (then any second call is right), C106_second_refuted (otherwise not); C106_second_iff: for every other word some second call panics."
  },
  {
   "property": "C107",
   "status": "proved",
   "theorems": [
    "C107_plain",
    "C107_drawn",
    "C107_all_dropped",
    "C107_tokenize"
   ],
   "note": "C107_plain (linear), C107_drawn (quadratic, and later numbers do not matter), C107_all_dropped (the exact number if all are dropped), C107_tokenize. The example reaches both bounds."
  },
  {
   "property": "C108",
   "status": "partial",
   "theorems": [
    "C108_merge_refuted",
    "C108_merge_iff",
    "C108_merge_any",
    "C108_tokenize_iff",
    "C108_tokenize",
    "C108_tokenize_refuted",
    "C108_transform"
   ],
   "note": "Proved for Tokenize of valid texts on 32 and 64 bits, and of all texts on 64 bits (C108_tokenize; C108_tokenize_iff: exactly which texts; C108_tokenize_refuted: 2^30 undecodable bytes on 32 bits), and for TransformRange (C108_transform). Refuted for MergeAll on words of a client: four symbols of length 2^62 (2^30) merge into nothing (C108_merge_refuted); C108_merge_iff: right for all merges and draws iff the lengths together fit. C108_merge_any: any links, any lengths."
  },
  {
   "property": "C109",
   "status": "partial",
   "theorems": [
    "C109_any",
    "C109_saturates",
    "C109_textbook",
    "C109_nothing_lost_refuted",
    "C109_nothing_lost_iff"
   ],
   "note": "Proved: end without panic, the sum (C109_any), all pairs whose left symbol is not empty are merged (C109_saturates), in the order of the textbook for merges that concatenate (C109_textbook). Refuted: symbols are lost (C109_nothing_lost_refuted); for lengths that are not negative, none is iff all are positive (C109_nothing_lost_iff)."
  },
  {
   "property": "C110",
   "status": "proved",
   "theorems": [
    "C110_edits",
    "C110_replace",
    "C110_replace_refuted",
    "C110_bert_refuted",
    "C110_bert",
    "C110_sequence",
    "C110_history",
    "C110_invariants",
    "C110_split",
    "C110_normalize",
    "C110_tokenize",
    "C110_pts_history",
    "C110_pretokenizers",
    "C110_resume"
   ],
   "note": "C110_edits: TransformRange, Transform, Prepend, Append, Filter, Map, Trim do all or nothing; C110_replace, C110_bert, C110_sequence: exactly what is left of the others (C110_replace_refuted, C110_bert_refuted: not all or nothing). C110_history, C110_pts_history: states reached with recovered panics are reached without."
  },
  {
   "property": "C111",
   "status": "partial",
   "theorems": [
    "C111_reference",
    "C111_pieces_iff",
    "C111_word",
    "C111_order_refuted",
    "C111_gpt2_partial",
    "C111_text_iff",
    "C111_own_regexp",
    "C111_normalized_partial",
    "C111_case_refuted"
   ],
   "note": "False as stated: GPT-2's expression respects case, the library's is compiled with IgnoreCase (C111_case_refuted: \"'To\"). C111_pieces_iff: both cut a text in the same way exactly if the library finds no capitalised contraction in it. C111_gpt2_partial and C111_normalized_partial: the tokens of GPT-2 for all such texts; C111_text_iff: for one text, all merges and vocabularies give the tokens of GPT-2 iff it has no such contraction. C111_own_regexp: for all texts, if the expression is compiled without IgnoreCase. C111_reference (gpt2_tokens has exactly one answer), C111_word. C111_order_refuted: with \"ab a\" before \"a b\" the library differs on \"abab\"."
  },
  {
   "property": "C112",
   "status": "partial",
   "theorems": [
    "C112_word",
    "C112_bert_partial",
    "C112_cased_partial",
    "C112_text_iff",
    "C112_cased_text_iff",
    "C112_conditions",
    "C112_accents_refuted",
    "C112_symbols_refuted",
    "C112_extension_refuted",
    "C112_mark_refuted",
    "C112_three_refuted"
   ],
   "note": "False as stated. C112_conditions (C112_bert_partial, C112_cased_partial): true under five conditions on the text, and none of them can be dropped: in NFD (C112_accents_refuted), no ASCII symbol such as $ (C112_symbols_refuted), nothing in U+2B820..2B91F (C112_extension_refuted), no panic of the normalizer (C112_mark_refuted), no three-byte character after the first of a word (C112_three_refuted). C112_text_iff, C112_cased_text_iff: for one text, over all vocabularies, exactly: no panic, the same words, no such character."
  },
  {
   "property": "C113",
   "status": "proved",
   "theorems": [
    "C113_merges",
    "C113_read_error",
    "C113_cut_line_refuted",
    "C113_cut_panic",
    "C113_no_silence",
    "C113_vocabulary"
   ],
   "note": "C113_merges, C113_read_error, C113_no_silence, C113_vocabulary. C113_cut_line_refuted, C113_cut_panic: a failing read may be reported as a malformed line, or panic."
  },
  {
   "property": "C114",
   "status": "proved",
   "theorems": [
    "C114_comparison",
    "C114_tokenize",
    "C114_extremes"
   ],
   "note": "C114_comparison (on Coq's SpecFloat, for canonical numbers), C114_tokenize, C114_extremes."
  },
  {
   "property": "C115",
   "status": "proved",
   "theorems": [
    "C115_transform",
    "C115_slice",
    "C115_enough",
    "C115_fresh",
    "C115_coerce",
    "C115_get_original"
   ],
   "note": "C115_transform, C115_slice with C115_enough, C115_fresh, C115_coerce (exact)."
  },
  {
   "property": "C116",
   "status": "partial",
   "theorems": [
    "C116_library",
    "C116_invert",
    "C116_split",
    "C116_replace",
    "C116_kept",
    "C116_kept_refuted"
   ],
   "note": "True for the library's patterns and every other that makes new slices (C116_library, C116_invert, C116_split, C116_replace). False for a client's pattern that returns one slice again and again (C116_kept_refuted): every other call finds the opposite (C116_kept, exact)."
  },
  {
   "property": "C117",
   "status": "partial",
   "theorems": [
    "C117_split",
    "C117_normalize",
    "C117_tokenize",
    "C117_overwritten",
    "C117_tokenize_partial",
    "C117_tokenize_refuted",
    "C117_own_tokens_refuted",
    "C117_nested"
   ],
   "note": "Exact for functions that leave the PreTokenizedString alone (C117_split, C117_normalize, C117_tokenize: as Pointers.v, and which arrays are written). What functions given to Split do to it is overwritten (C117_overwritten). Tokenize indexes p.splits anew for every token list: it panics if a function has left fewer splits (C117_tokenize_refuted), gives tokens to other splits if one has replaced them (C117_own_tokens_refuted), does not panic if none leaves fewer (C117_tokenize_partial); C117_nested: a tokenizer that calls Tokenize, exactly."
  },
  {
   "property": "C118",
   "status": "partial",
   "theorems": [
    "C118_answers",
    "C118_dropout",
    "C118_ends",
    "C118_alone",
    "C118_seed_refuted"
   ],
   "note": "C118_answers without dropout, for every cache that returns only what was stored; C118_dropout: the answer for the numbers taken, exactly; C118_ends; C118_alone relates the steps to the sequential function. That a fixed seed gives the answers of the calls in some order is false (C118_seed_refuted). Methods of the cache and rand.Float64 are taken to be atomic, as rand's are and those of wordcache.go (which do nothing)."
  },
  {
   "property": "C119",
   "status": "proved",
   "theorems": [
    "C119_same_bpe",
    "C119_same_wordpiece",
    "C119_same_merges_file",
    "C119_nil_map",
    "C119_bpe_vocab",
    "C119_wordpiece_vocab",
    "C119_merges_file",
    "C119_bpe_merges",
    "C119_bpe_merges_any"
   ],
   "note": "C119_same_* show that the model with pointers is that of the other properties when they are not nil. C119_bpe_merges takes a vocabulary whose two maps are inverse to each other. C119_bpe_merges_any is for any vocabulary, and counts symbols instead of tokens."
  },
  {
   "property": "C120",
   "status": "proved",
   "theorems": [
    "C120_map",
    "C120_map_panics",
    "C120_filter_text",
    "C120_filter",
    "C120_filter_panics",
    "C120_func",
    "C120_func_unique",
    "C120_func_panics",
    "C120_same_map",
    "C120_same_filter",
    "C120_same_func",
    "C120_nil"
   ],
   "note": "The spans after Filter are in C120_filter, for functions that refuse only ASCII before the first character kept, as in C08; where others are refused there Filter itself may panic or give wrong spans (C08), and C120_filter_text has the text only."
  }
 ]
}
