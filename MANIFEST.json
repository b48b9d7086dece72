{"claims": [
{"property": "C01", "status": "proved", "theorems": ["C01_search_sound"], "note": "For every loaded grammar, start section and phrase: a returned path is a leftmost derivation and its input classes choose one class per token."},
{"property": "C02", "status": "proved", "theorems": ["C02_search_complete"], "note": "Every derivation with at most |tokens|+2 meta expansions is returned, for phrases with at most 2^32 class combinations (beyond, C10 shows the enumeration itself wraps)."},
{"property": "C03", "status": "partial", "theorems": ["C03_derivable_is_matched_refuted", "C03_derivable_is_matched_partial"], "note": "REFUTED in full: a chain of four unit meta rules derives a one-token phrase but search returns nothing. Proved when meta rules have >= 2 references and rules consume a token."},
{"property": "C04", "status": "proved", "theorems": ["C04_search_terminates", "C04_search_call_depth"], "note": "Search returns for every loaded grammar; explicit quadratic bound on the nesting of match/matchNext calls for grammars of any shape."},
{"property": "C05", "status": "proved", "theorems": ["C05_reclass_faithful"], "note": "Any path returned by search reclassifies successfully and faithfully."},
{"property": "C06", "status": "proved", "theorems": ["C06_always", "C06_best_match"], "note": "C06_best_match: scores not NaN (NaN scores can be loaded, C41) and rule counts below 2^127. C06_always: no such conditions, an average that is NaN counts as zero."},
{"property": "C07", "status": "proved", "theorems": ["C07_always", "C07_best_phrase"], "note": "C07_best_phrase: same conditions as C06; C07_always without them."},
{"property": "C08", "status": "proved", "theorems": ["C08_always", "C08_score_sign"], "note": "Score sign versus existence of a match, for loaded grammars; C08_always whatever the scores are."},
{"property": "C09", "status": "proved", "theorems": ["C09_powers_of_two", "C09_product_refuted", "C09_enumerate_product", "C09_enumerate_no_class", "C09_enumerate_empty"], "note": "Exact product, without repetition, lexicographically sorted, up to 2^32 combinations; class sets are ordered as std::set keeps them. C09_powers_of_two goes beyond for class counts that are powers of two; C09_product_refuted: without a condition patterns are repeated and missing."},
{"property": "C10", "status": "partial", "theorems": ["C10_ambiguous_has_patterns_refuted", "C10_pattern_count", "C10_ambiguous_has_patterns_partial"], "note": "REFUTED: 64 tokens with two classes each give no pattern at all (64-bit product wraps to 0). Proved when the product is below 2^64 (C10_ambiguous_has_patterns_partial); C09 says which patterns."},
{"property": "C11", "status": "proved", "theorems": ["C11_all_matches"], "note": "Rows of the full search."},
{"property": "C12", "status": "partial", "theorems": ["C12_matches_listed_once_refuted", "C12_matches_listed_partial"], "note": "REFUTED: two derivations, four rows (matchNext reprocesses the whole list per result). Proved: the set of listed rule sequences is exactly the set derivable within the limit. The exact order and numbers are C78."},
{"property": "C13", "status": "proved", "theorems": ["C13_pattern_shape", "C13_pattern_determines"], "note": "Shape of the pattern string and its injectivity."},
{"property": "C14", "status": "partial", "theorems": ["C14_columns", "C14_classes_kept", "C14_null", "C14_null_iff_empty_refuted", "C14_null_iff_empty_partial"], "note": "REFUTED for \"NULL exactly when empty\": an unfiltered blank splits into empty tokens, whose column is an empty text. Proved: contents of all columns; NULL exactly when no token belongs to the column; no empty text if no token of the match is empty."},
{"property": "C15", "status": "proved", "theorems": ["C15_filter", "C15_twice", "C15_edits", "C15_set_only"], "note": ""},
{"property": "C16", "status": "partial", "theorems": ["C16_alternatives_refuted", "C16_tokens_partial", "C16_alternatives_partial"], "note": "REFUTED: alternatives are not filtered. Proved: the tokenization is clean; alternatives are clean when only separator classes are filtered and the words of phrases consist of word characters not listed with a filtered class."},
{"property": "C17", "status": "proved", "theorems": ["C17_alternatives", "C17_phrases"], "note": "For up to 31 phrases; with more the shift is undefined."},
{"property": "C18", "status": "partial", "theorems": ["C18_exact", "C18_empty_token_refuted", "C18_no_empty_token_partial"], "note": "REFUTED: an unfiltered blank separator becomes two empty tokens. C18_exact: for tokens without tabs, exactly when an alternative has an empty token."},
{"property": "C19", "status": "proved", "theorems": ["C19_classification", "C19_text_kept", "C19_shape_only"], "note": "Any lexicon and Unicode tables; the shape of the text is described by a table of rows independent of the regular expressions; the text changes only for decimal numbers with a comma."},
{"property": "C20", "status": "partial", "theorems": ["C20_exact", "C20_single_letter_refuted", "C20_short_words_partial"], "note": "REFUTED: length is counted in bytes, so a single non-ASCII letter is DOUBLE and not SINGLE. Proved for ASCII letters; C20_exact gives the classes of every word of letters by its bytes."},
{"property": "C21", "status": "proved", "theorems": ["C21_standard_word"], "note": ""},
{"property": "C22", "status": "partial", "theorems": ["C22_no_gaps_refuted", "C22_left_to_right_partial", "C22_one_line_partial", "C22_left_over_partial"], "note": "REFUTED: lines that cannot be read are skipped when a later line can. Proved: order, blanks-token-separator structure and whole separators; nothing is skipped in one line; skipping and left-over text only where nothing can be read (lexicon words without carets and braces)."},
{"property": "C23", "status": "partial", "theorems": ["C23_exact", "C23_tabs_partial", "C23_kept_refuted", "C23_letters_kept_partial"], "note": "REFUTED: \"#12 MAIN\" gives no tokens. C23_exact: for every text, a character that is in no token is a comma, white space, in a separator, skipped or left over. The claim holds for texts of letters, digits and separators that begin with a letter or digit, tabs included (C23_tabs_partial)."},
{"property": "C24", "status": "proved", "theorems": ["C24_scan_ends", "C24_tokens_end", "C24_pattern_parses"], "note": "For lexicons that can occur and tables in which line ends are blanks; a pattern that cannot be compiled raises an exception (never for words without carets and braces)."},
{"property": "C25", "status": "proved", "theorems": ["C25_longest_word", "C25_both_cases_refuted"], "note": "Words without carets and braces; no character of the text occurs in two cases in the words (necessary: C25_both_cases_refuted)."},
{"property": "C26", "status": "proved", "theorems": ["C26_parts"], "note": "Texts without tabs; mixed tokens without blanks."},
{"property": "C27", "status": "proved", "theorems": ["C27_entries"], "note": "All histories of insert, remove and pattern calls."},
{"property": "C28", "status": "proved", "theorems": ["C28_never_stale", "C28_fresh_lexicon"], "note": "All interleavings; includes that a fresh lexicon with the same entries exists."},
{"property": "C29", "status": "proved", "theorems": ["C29_entry_round_trip"], "note": ""},
{"property": "C30", "status": "proved", "theorems": ["C30_print_load"], "note": "Any normalizer and upper-casing that leave the printed lines alone."},
{"property": "C31", "status": "partial", "theorems": ["C31_exact", "C31_newline_refuted", "C31_newline_partial"], "note": "REFUTED: a text ending in the header line without newline is rejected. C31_exact: in every other case the newline makes no difference, for idempotent normalization, up to the digest."},
{"property": "C32", "status": "partial", "theorems": ["C32_crlf_refuted", "C32_crlf_rejected_refuted", "C32_crlf_partial"], "note": "REFUTED: the carriage return becomes part of the last column (attachment lost, or class read as BADTOKEN and the file rejected). Proved when a further column follows."},
{"property": "C33", "status": "partial", "theorems": ["C33_lexicon_exact", "C33_lexicon_cut", "C33_grammar_bom_refuted", "C33_grammar_bom_partial", "C33_lexicon_mark_refuted", "C33_lexicon_mark_partial"], "note": "REFUTED for both file kinds: substr(4) drops one byte after the mark. Proved: exact behaviour for grammars and for lexicons (C33_lexicon_exact, C33_lexicon_cut)."},
{"property": "C34", "status": "proved", "theorems": ["C34_names_round_trip", "C34_sets_round_trip", "C34_other_strings"], "note": "Names, languages, class sets and attachment sets; every string."},
{"property": "C35", "status": "partial", "theorems": ["C35_blanks_harmless_refuted", "C35_blanks_harmless_partial", "C35_exact"], "note": "REFUTED: an all-blank last piece is read as BADTOKEN. C35_exact gives the classes read from every list of pieces."},
{"property": "C36", "status": "proved", "theorems": ["C36_loaded_grammar_closed"], "note": "linked, ADDRESS, balanced rules, status; any Unicode tables satisfying uni_ok."},
{"property": "C37", "status": "proved", "theorems": ["C37_load_iff_well_formed", "C37_rule_lines"], "note": "Loading succeeds exactly for texts that mean a closed grammar with ADDRESS; never undefined behaviour."},
{"property": "C38", "status": "partial", "theorems": ["C38_every_line_counts_refuted", "C38_every_line_counts_partial"], "note": "REFUTED: a line containing @ that is not a reference list is silently ignored. Proved when every line with @ is a reference list; the exact contents of a loaded grammar are C84_accepted_contents."},
{"property": "C39", "status": "partial", "theorems": ["C39_exact", "C39_final_newline_refuted", "C39_final_newline_partial"], "note": "REFUTED: a last rule line without newline is read twice. Proved when the last line is empty, a comment or a header; C39_exact: every file is read as if its last line stood there once more."},
{"property": "C40", "status": "partial", "theorems": ["C40_misspelled_used_refuted", "C40_misspelled_rejected_refuted", "C40_misspelled_unused_partial"], "note": "REFUTED: unknown class names are read as BADTOKEN and accepted. C40_misspelled_unused_partial: with a lexicon loaded from text, no such rule (misspelled input name) takes part in a row, for addresses without tabs; C40_misspelled_used_refuted: with tabs one does."},
{"property": "C41", "status": "partial", "theorems": ["C41_rules_balanced", "C41_positive_score_refuted", "C41_positive_score_partial"], "note": "Balance proved for all operation sequences. Positivity REFUTED for a score read as NaN, proved for every other score."},
{"property": "C42", "status": "proved", "theorems": ["C42_utf8_inverse", "C42_large_value_throws", "C42_encoding_injective"], "note": "All sequences of code points below 0x110000; the iteration results include out-of-range reads as a distinct outcome, which is excluded."},
{"property": "C43", "status": "proved", "theorems": ["C43_trie_words", "C43_trie_listing", "C43_collect"], "note": "All word sequences; the listing is sorted and duplicate free."},
{"property": "C44", "status": "proved", "theorems": ["C44_trie_pattern"], "note": "Boost matching as modelled in Regex_model (backtracking, alternatives in order); case-sensitive matching, any Unicode tables."},
{"property": "C45", "status": "partial", "theorems": ["C45_caret", "C45_caret_line", "C45_itself", "C45_missed_word_refuted", "C45_extra_word_refuted", "C45_literal_partial"], "note": "REFUTED both ways: the word A^B is not matched by its own pattern; for words ^ and a the pattern matches b. C45_literal_partial: the pattern of one word with no such character matches exactly it. C45_caret says exactly what one word without braces matches, C45_itself when it matches itself. Words with braces are left out: boost reads a brace that starts no repeat in its own way, which is not modelled."},
{"property": "C46", "status": "proved", "theorems": ["C46_feeding", "C46_digest_shape", "C46_finalize_again"], "note": "Any contents of the uninitialized arrays, any cuts."},
{"property": "C47", "status": "partial", "theorems": ["C47_is_md5_refuted", "C47_digest_partial"], "note": "REFUTED: F and G are not those of RFC 1321 (abc). Proved: the digest is exactly RFC 1321 with those two functions replaced."},
{"property": "C48", "status": "proved", "theorems": ["C48_right_standardizer", "C48_exact_texts", "C48_all_answered"], "note": "Any digest function and any allocation of contexts not in use; a call site is one fn_extra. Exact texts without digest collisions among the texts of the session."},
{"property": "C49", "status": "proved", "theorems": ["C49_at_most_four", "C49_in_memory", "C49_free_in_use", "C49_freed_once", "C49_all_freed", "C49_no_error"], "note": "The delete callback of a context runs once, when the context is deleted; the contexts of a call site are deleted when it ends."},
{"property": "C50", "status": "proved", "theorems": ["C50_oldest_leaves", "C50_built_once"], "note": "Keys are pairs of digests; without an end of the call site in between."},
{"property": "C51", "status": "partial", "theorems": ["C51_error_defined_refuted", "C51_lexicon_error_defined_refuted", "C51_always_undefined", "C51_good_texts_partial"], "note": "Refuted: CreateStd passes a null err_msg, so a text that does not load is undefined behaviour (also freeing the lexicon twice). Proved: with texts that load and defined answers every call is answered."},
{"property": "C52", "status": "proved", "theorems": ["C52_rows", "C52_increasing"], "note": ""},
{"property": "C53", "status": "partial", "theorems": ["C53_position_refuted", "C53_position_partial"], "note": "REFUTED: the count goes on over the alternatives. Proved for the first pattern; C52_rows gives the number everywhere."},
{"property": "C54", "status": "proved", "theorems": ["C54_token_round_trip"], "note": ""},
{"property": "C55", "status": "partial", "theorems": ["C55_tab_refuted", "C55_scanned_text_partial"], "note": "REFUTED: a tab in a separator cuts the token text. Proved without tabs; a number with a comma gets a full stop."},
{"property": "C56", "status": "proved", "theorems": ["C56_round_trip", "C56_loaded_ordered", "C56_old_version", "C56_compiled", "C56_equivalent", "C56_source", "C56_numbers", "C56_format", "C56_same_results"], "note": "Boost text archive modelled as the sequence of its fields (class headers, counts, strings with lengths). Round trip, rejection of older versions, and equality of everything computed from the compiled form and from the source. C56_numbers: the numbers of the enumerations in the headers."},
{"property": "C57", "status": "proved", "theorems": ["C57_counts", "C57_wraps"], "note": "Counters wrap modulo 2^64; the count is exact modulo that (C57_counts, C57_wraps)."},
{"property": "C58", "status": "partial", "theorems": ["C58_best_is_top_row_refuted", "C58_best_is_row_partial"], "note": "REFUTED: float averages tie while double averages differ. Proved: the reported pattern is that of a row with maximal single-precision average."},
{"property": "C59", "status": "proved", "theorems": ["C59_match_rule_prefix", "C59_rule_match_prefix"], "note": ""},
{"property": "C60", "status": "partial", "theorems": ["C60_print_reload_partial", "C60_print_reload_refuted", "C60_exact"], "note": "REFUTED for grammars with a section whose lines were all ignored (C38). C60_exact: which printed grammars can be read back and what is read, for scores that print as a readable positive number."},
{"property": "C61", "status": "proved", "theorems": ["C61_always", "C61_derived", "C61_best"], "note": "C61_best: numbers of rules below 2^127 (sizes_ok), scores that are numbers; C61_always without them; maximality over tokenizations with at most 2^32 class combinations."},
{"property": "C62", "status": "proved", "theorems": ["C62_always", "C62_answers"], "note": "C62_always: for all loaded grammars, whatever the scores are. Lexicon words without carets and braces; tables in which line ends are blanks."},
{"property": "C63", "status": "proved", "theorems": ["C63_history"], "note": "Tokenizing changes a lexicon only by storing its three patterns."},
{"property": "C64", "status": "proved", "theorems": ["C64_row"], "note": ""},
{"property": "C65", "status": "proved", "theorems": ["C65_rows"], "note": "std::sort is any function that returns a permutation in which no later row has a higher score."},
{"property": "C66", "status": "proved", "theorems": ["C66_same_rows"], "note": "Without digest collisions among the texts of the session."},
{"property": "C67", "status": "proved", "theorems": ["C67_accepted", "C67_no_header", "C67_entries", "C67_one_entry"], "note": "Texts whose lines all end in a newline and whose first line has no byte order mark (C30, C31 treat those)."},
{"property": "C68", "status": "proved", "theorems": ["C68_tokens", "C68_unique", "C68_separators_unique"], "note": "Lexicon words without carets, braces and tabs; separators with tabs included; tables in which letters and digits are word characters and line ends are blanks (word_tables, blank_lines)."},
{"property": "C69", "status": "proved", "theorems": ["C69_score", "C69_concat", "C69_match", "C69_positions"], "note": "Score: for scores between 2^-100 and 2^100, up to three roundings to 24 bits."},
{"property": "C70", "status": "proved", "theorems": ["C70_add", "C70_query", "C70_size"], "note": ""},
{"property": "C71", "status": "proved", "theorems": ["C71_meta_rule", "C71_rule", "C71_class"], "note": ""},
{"property": "C72", "status": "partial", "theorems": ["C72_single", "C72_double", "C72_error", "C72_equal_scores_refuted"], "note": "Proved for scores between 2^-100 and 2^100 and at most 2^20 rules; refuted: the average of equal scores is that score."},
{"property": "C73", "status": "partial", "theorems": ["C73_exact_best_refuted", "C73_nearly_best_partial"], "note": "Refuted in exact arithmetic; proved up to the rounding errors of the two averages, for scores between 2^-100 and 2^100 and at most 2^20 rules."},
{"property": "C74", "status": "proved", "theorems": ["C74_standardize", "C74_parse", "C74_parse_overflow", "C74_match", "C74_match_overflow", "C74_compile"], "note": "malloc, calloc and strdup do not fail in the model; the C++ objects are not blocks."},
{"property": "C75", "status": "partial", "theorems": ["C75_all_freed_refuted", "C75_empty_parse_refuted", "C75_limit_refuted", "C75_standardize_left", "C75_parse_left", "C75_parse_abandoned", "C75_match_left", "C75_compile_left"], "note": "Refuted with witnesses; what stays is proved exactly (messages of exceptions, the empty array, all blocks of a result not read to its end)."},
{"property": "C76", "status": "proved", "theorems": ["C76_rounds"], "note": "Equivalence with a description of rounds that mentions no pattern."},
{"property": "C77", "status": "proved", "theorems": ["C77_tokens", "C77_alternatives", "C77_filter", "C77_tokenizations"], "note": "Tokens, filter, alternatives and the whole, each as an equivalence with the description."},
{"property": "C78", "status": "proved", "theorems": ["C78_listing"], "note": "Order and multiplicities exactly; class sets of tokens are sorted lists without repetition, as std::set keeps them."},
{"property": "C79", "status": "proved", "theorems": ["C79_first_best", "C79_unique"], "note": "Scores not NaN, rule counts below 2^127, at most 2^32 class combinations per tokenization."},
{"property": "C80", "status": "proved", "theorems": ["C80_standardize", "C80_parse", "C80_match"], "note": "Equivalences for as_standardize and as_parse; for as_match the order of rows with equal scores is left open, as std::sort leaves it."},
{"property": "C81", "status": "proved", "theorems": ["C81_limit_harmless"], "note": ""},
{"property": "C82", "status": "proved", "theorems": ["C82_shipped_grammars"], "note": "Scores are read with the exact decimal reader of the examples."},
{"property": "C83", "status": "partial", "theorems": ["C83_class_names_known_refuted", "C83_unit_in_unit_column_refuted", "C83_class_names_known_partial"], "note": "Refuted with witnesses; proved which rules are concerned."},
{"property": "C84", "status": "proved", "theorems": ["C84_rejection_message", "C84_accepted_contents", "C84_never_reported"], "note": ""},
{"property": "C85", "status": "proved", "theorems": ["C85_loaded_exactly", "C85_no_undefined_behaviour"], "note": "Every lexicon text (any line ends, with or without mark or final line feed): accepted iff it has a meaning, and then the loaded lexicon is exactly that meaning, including order and multiplicity of entries and the digested text; never undefined behaviour. Extends C67 to all texts."},
{"property": "C86", "status": "proved", "theorems": ["C86_rejection_message", "C86_line_number_refuted"], "note": "Throw m iff the text has the fault of m, with number and text shown. The number shown is one more than the number of the line (src/lexicon.cpp counts the header twice): C86_line_number_refuted."},
{"property": "C87", "status": "proved", "theorems": ["C87_standardize", "C87_standardize_undefined", "C87_standardize_message", "C87_parse", "C87_match"], "note": "Whole calls from the text arguments to rows, undefined behaviour and messages, as equivalences (as_match: for any sort putting larger scores first, one direction for the rows, because ties may be ordered either way). Conditions: real character tables, words without carets and braces, text without characters listed in two cases, no NaN score, at most 2^32 combinations."},
{"property": "C88", "status": "proved", "theorems": ["C88_kinds", "C88_attached_or_detached", "C88_fields", "C88_line", "C88_set", "C88_equal"], "note": ""},
{"property": "C89", "status": "proved", "theorems": ["C89_text_order", "C89_byte_order", "C89_total"], "note": ""},
{"property": "C90", "status": "proved", "theorems": ["C90_matches_kept", "C90_score", "C90_standardized", "C90_rows", "C90_reordered"], "note": "Containment of grammars as rules under section names; no NaN score, sizes a machine can represent, at most 2^32 class combinations."},
{"property": "C91", "status": "proved", "theorems": ["C91_blanks_around", "C91_case", "C91_blanks_inside_refuted", "C91_untrimmed_refuted", "C91_untrimmed_inside_refuted", "C91_unfiltered_refuted"], "note": "Whole calls. The condition on the reading (text after normalization and upper case) is a padding with blanks. What the conditions exclude is refuted with witnesses: inner blanks, listed words ending with a blank, filters without SPACE."},
{"property": "C92", "status": "proved", "theorems": ["C92_words_that_occur", "C92_unrelated_entry", "C92_first_word_refuted", "C92_occurring_word_refuted"], "note": "Whole calls with two lexicon texts; the condition that both list some word is shown to be needed (C92_first_word_refuted)."},
{"property": "C93", "status": "proved", "theorems": ["C93_line_order", "C93_same_word_refuted"], "note": "No condition on address, tables or words; C93_same_word_refuted shows that the order within one word does matter."},
{"property": "C94", "status": "proved", "theorems": ["C94_words", "C94_listing", "C94_collect", "C94_as_utf8", "C94_pattern_undefined", "C94_ascii_pattern", "C94_same_pattern", "C94_utf8_pattern_refuted", "C94_print", "C94_print_utf8"], "note": "C94_utf8_pattern_refuted is a witness that the byte pattern of UTF-8 words need not be UTF-8; the undefined behaviour of getRegexp is characterised exactly by C94_pattern_undefined."},
{"property": "C95", "status": "proved", "theorems": ["C95_white_separator", "C95_white_space_refuted", "C95_filter_refuted", "C95_blank_after_refuted"], "note": "C95_white_separator proved for every run of white space. REFUTED: that white space is interchangeable; witnesses with tabs."},
{"property": "C96", "status": "proved", "theorems": ["C96_separators", "C96_blanks", "C96_joined_refuted"], "note": "C96_separators for any set of separators, C96_blanks for blanks. C96_joined_refuted is a witness that the condition on single joining signs is needed; C91_blanks_inside_refuted that the condition on listed words is; C95_filter_refuted that the condition on the filter is."},
{"property": "C97", "status": "proved", "theorems": ["C97_copy", "C97_copy_address", "C97_orphan", "C97_objects", "C97_independent_refuted"], "note": "C97_copy and C97_copy_address while the first Grammar exists, C97_orphan exactly what happens afterwards, C97_objects when making, copying and deleting is defined. REFUTED: that a copy is independent of its original."},
{"property": "C98", "status": "proved", "theorems": ["C98_search", "C98_same", "C98_reached", "C98_lines_refuted"], "note": "C98_search and C98_same for any correspondence of sections, C98_reached for order, names and unused sections. C98_lines_refuted is the witness that the order of lines has to be kept."},
{"property": "C99", "status": "proved", "theorems": ["C99_source", "C99_standardize", "C99_parse", "C99_match", "C99_compile", "C99_c_str", "C99_not_cut", "C99_bytes"], "note": "C99_source for the columns given a lexicon; C99_standardize, C99_parse, C99_match, C99_compile for whole calls with messages; C99_c_str, C99_not_cut, C99_bytes for the C strings. That normalization and upper-casing keep the set is a hypothesis on the oracles."},
{"property": "C100", "status": "proved", "theorems": ["C100_comment", "C100_section", "C100_meta", "C100_refs", "C100_blanks", "C100_dash", "C100_answers", "C100_grammar", "C100_lexicon"], "note": "C100_comment, C100_section, C100_meta, C100_refs, C100_blanks, C100_dash against the kinds of lines; C100_answers for termination; C100_grammar and C100_lexicon for the loaders. The matcher of boost is the transcription in Regex_model."},
{"property": "C101", "status": "proved", "theorems": ["C101_read", "C101_valid", "C101_reported_refuted", "C101_back_refuted", "C101_back_defined_refuted", "C101_add", "C101_find", "C101_fill", "C101_member", "C101_foreign_refuted", "C101_listing", "C101_starting", "C101_print", "C101_usable_refuted", "C101_same_bytes_refuted", "C101_valid_words"], "note": "C101_read, C101_add, C101_find, C101_fill, C101_member, C101_listing, C101_starting, C101_print are exact for arbitrary bytes, C101_valid and C101_valid_words for UTF-8. The _refuted theorems are witnesses for what ill-formed bytes do."},
{"property": "C102", "status": "proved", "theorems": ["C102_digest", "C102_bytes", "C102_line_ends", "C102_identifies_refuted", "C102_lexicon_refuted"], "note": "C102_digest says what is digested, C102_line_ends that line ends do not matter; C102_identifies_refuted and C102_lexicon_refuted are texts of different meaning with one digest. What is digested of a lexicon is in C85_loaded_exactly."},
{"property": "C103", "status": "proved", "theorems": ["C103_standardize", "C103_defined", "C103_parse", "C103_match", "C103_null_argument", "C103_other_arguments", "C103_rules_refuted", "C103_tuple"], "note": "C103_standardize, C103_parse, C103_match and C103_null_argument give the rows by column names, C103_defined that forming tuples is safe; C103_rules_refuted: the number of rules stored by as_match is not returned. The cache is left out here (C66)."},
{"property": "C104", "status": "proved", "theorems": ["C104_cut_refused", "C104_cut_accepted", "C104_cut_answers", "C104_every_cut_refuted", "C104_followed", "C104_source_only", "C104_left_whole", "C104_kept_entries", "C104_source_alone_refuted"], "note": "C104_cut_refused, C104_cut_accepted and C104_cut_answers cover every cut, C104_followed what comes behind, C104_source_only texts that are no archives, C104_left_whole and C104_kept_entries what a broken archive leaves. C104_every_cut_refuted and C104_source_alone_refuted are witnesses for the two claims that are false."},
{"property": "C105", "status": "proved", "theorems": ["C105_line_grows", "C105_standardized", "C105_rows", "C105_header_refuted", "C105_rule", "C105_references", "C105_comment"], "note": "C105_line_grows, C105_standardized and C105_rows: nothing is lost; C105_rule, C105_references and C105_comment: what the line does. C105_header_refuted is a witness for the claim that is false. Texts without byte order mark."},
{"property": "C106", "status": "proved", "theorems": ["C106_bounds", "C106_update", "C106_update_ends", "C106_finalize", "C106_hexdigest", "C106_md5", "C106_ends_refuted", "C106_whole_text_refuted"], "note": "C106_bounds: which accesses are within an array. C106_update, C106_finalize, C106_hexdigest and C106_md5: no access outside an array, the loops end, the value is that of the functions over lists; C106_update_ends: exactly for which lengths. C106_ends_refuted and C106_whole_text_refuted are witnesses (2^32-64 and 2^32 bytes) for the two claims that are false."},
{"property": "C107", "status": "proved", "theorems": ["C107_words", "C107_nodes", "C107_freed", "C107_copy", "C107_copy_refuted"], "note": "C107_words: adding and asking never touch memory that is not allocated, other memory is kept, the answers are those of C43. C107_nodes: one node per prefix, nothing else. C107_freed: the destructor gives the memory before. C107_copy: destroying a copy of a trie with a word always frees twice; C107_copy_refuted is a witness."},
{"property": "C108", "status": "proved", "theorems": ["C108_order", "C108_rows", "C108_order_refuted"], "note": "C108_order: exactly when sortByScoresDesc is a strict weak order on the rows. C108_rows: it is for the rows of a grammar without NaN scores. C108_order_refuted: a grammar text with the score nan whose rows std::sort must not be given."},
{"property": "C109", "status": "proved", "theorems": ["C109_file", "C109_missing", "C109_chars", "C109_by_type", "C109_literal", "C109_tool", "C109_tool_answers", "C109_tool_fails"], "note": "A file whose reading fails halfway and an output file that cannot be created are not modelled."},
{"property": "C110", "status": "proved", "theorems": ["C110_loads", "C110_text_unique", "C110_answers"], "note": "The bytes of the 25 files are in ShippedLex_model. The Unicode tables are assumed to upper-case characters below U+0300 one by one in the 24 locales."},
{"property": "C111", "status": "partial", "theorems": ["C111_line_ends_refuted", "C111_line_ends_partial", "C111_attachments_refuted", "C111_attachments_partial", "C111_words_found_refuted"], "note": "REFUTED: germany.lex has CR LF line ends and loses attachments, andorra.lex has the undocumented DETATCH, belgium.lex lists \"SUITE \" with a blank. Proved: no other file has a carriage return, and outside germany.lex DETATCH is the only attachment that is not documented."},
{"property": "C112", "status": "proved", "theorems": ["C112_documented_syntax", "C112_probability_refuted"], "note": "REFUTED for a score of zero: C112_probability_refuted."},
{"property": "C113", "status": "partial", "theorems": ["C113_in_names", "C113_out_names", "C113_attachments", "C113_no_attachment", "C113_name_and_language", "C113_locale_unused_refuted", "C113_header_first_refuted", "C113_line_ends_refuted", "C113_ignore_refuted", "C113_stopwords_combine_refuted", "C113_attached_refuted", "C113_set_after_matching_refuted", "C113_set_after_matching_partial", "C113_pct_refuted"], "note": "REFUTED: use of the locale, place of the header, CR LF, IGNORE, combination of stop words, attachments of tokens, standard words before matching when the address has tabs, the shape of PCT. Proved: names of classes, attachments, name and language unused, tokens before matching in texts without tabs."},
{"property": "C114", "status": "proved", "theorems": ["C114_same_matches", "C114_lower_unused", "C114_same_row", "C114_change_unused", "C114_raise_enough", "C114_raise_in_range_refuted", "C114_raise_used_refuted"], "note": "REFUTED as advice: a score up to one need not be enough (C114_raise_in_range_refuted), and raising a rule of the right answer can lose it (C114_raise_used_refuted)."},
{"property": "C115", "status": "proved", "theorems": ["C115_at_most", "C115_exactly", "C115_rows", "C115_polynomial_refuted"], "note": "C115_at_most for every grammar, C115_exactly and C115_rows for one grammar and all phrases of words. C115_polynomial_refuted: no polynomial bound."},
{"property": "C116", "status": "proved", "theorems": ["C116_again", "C116_readings", "C116_entries", "C116_settles_refuted", "C116_shipped_refuted", "C116_call_refuted"], "note": "C116_again is an equivalence, C116_entries gives the condition in terms of the entries. REFUTED: that loaded or shipped lexicons are settled, and that the answer of a call can be read again."},
{"property": "C117", "status": "proved", "theorems": ["C117_script", "C117_country_refuted", "C117_code", "C117_codes", "C117_codes_refuted"], "note": "C117_script for all files and texts, C117_code says what the country code of a lexicon is, C117_codes for the shipped lexicons. REFUTED: that any country name is safe, and that a code names one lexicon."},
{"property": "C118", "status": "proved", "theorems": ["C118_compare", "C118_compare_refuted"], "note": "C118_compare says exactly what is written. C118_compare_refuted: it is not what the usage text promises."},
{"property": "C119", "status": "proved", "theorems": ["C119_pattern", "C119_phrases", "C119_matches_kept", "C119_score", "C119_standardized", "C119_rows", "C119_insert", "C119_filtered_refuted", "C119_answer_refuted"], "note": "C119_pattern, C119_phrases, C119_matches_kept, C119_score, C119_standardized, C119_rows, C119_insert. REFUTED for filtered classes; the answer itself may change (C119_answer_refuted)."},
{"property": "C120", "status": "proved", "theorems": ["C120_rules", "C120_empty_section_refuted", "C120_zero_score_refuted", "C120_malformed_refuted"], "note": "tools/convert-pagc-rules on files of well formed lines with codes in range: the grammar written loads with exactly these rules. Refuted for a section without rules and for a score of 0; a line with three -1 is not refused. Whole numbers only; Perl fractions and exponents are not modelled."},
{"property": "C121", "status": "proved", "theorems": ["C121_words", "C121_code_refuted", "C121_pattern_refuted"], "note": "tools/convert-pagc-lex-gaz on tables of words with known classes: the lexicon written loads with one entry per word and standard form and all its classes. The Perl pattern match is an oracle. Refuted for class 5 and for standard forms that do not match themselves."},
{"property": "C122", "status": "proved", "theorems": ["C122_files", "C122_safe", "C122_again", "C122_again_refuted", "C122_long_refuted", "C122_second_refuted", "C122_code_kept_refuted"], "note": "tools/add-lic-to-source: which files change and how, what may be removed, a second run changes nothing. Refuted: an old header always goes (more than 20 lines, a second one), code between the header and a later closing mark stays, a header file without a last line end is added once."},
{"property": "C123", "status": "proved", "theorems": ["C123_tokens", "C123_filtered", "C123_parse", "C123_tokenizations", "C123_parts", "C123_plain", "C123_across_refuted", "C123_joined_refuted"], "note": "The tokens of a line, a separator and a further text are those of the parts, with and without the filter, and so are the first rows of as_parse; the tokenizations are all pairs. Refuted for words across the separator and for signs that join numbers."},
{"property": "C124", "status": "proved", "theorems": ["C124_exact", "C124_sign", "C124_parse", "C124_alike", "C124_nothing", "C124_empty_rule_refuted", "C124_listed_refuted", "C124_line_refuted"], "note": "A line has no tokens exactly if no token can be read at its beginning; so if it begins with a sign with which no listed word begins. as_parse then returns no rows and all such addresses have the same answers, no match if all rules have input classes. Refuted for rules without classes, listed signs and line breaks."},
{"property": "C125", "status": "proved", "theorems": ["C125_tokens", "C125_filtered", "C125_calls", "C125_line_refuted"], "note": "If no token can be read behind a separator, nothing of the line behind it has a token, and the three functions answer as for the line before it. Refuted if a line break follows."},
{"property": "C126", "status": "proved", "theorems": ["C126_set", "C126_names", "C126_absent", "C126_clean", "C126_misspelled", "C126_tabs_refuted"], "note": "Filters that name the same classes give the same answers, for every argument; classes that no token has do not count; a misspelled name does nothing for addresses without tabs. Refuted for addresses with tabs."},
{"property": "C127", "status": "proved", "theorems": ["C127_match", "C127_standardize", "C127_first_refuted"], "note": "The classes of each pattern of as_match and as_standardize are taken from the class lists of the as_parse rows with one number. Refuted: that the number is always 1."},
{"property": "C128", "status": "proved", "theorems": ["C128_match", "C128_standardize", "C128_tables", "C128_no_rows_refuted", "C128_fields_refuted"], "note": "The number and class columns of as_parse determine the rows of as_match and the pattern of as_standardize, for all grammars. Refuted: when as_parse has no rows, and for the fields of as_standardize."},
{"property": "C129", "status": "proved", "theorems": ["C129_standardize", "C129_tables", "C129_tabs_refuted"], "note": "For one lexicon and addresses without tabs the number, word and class columns of as_parse determine the whole row of as_standardize, for all grammars. Refuted for addresses with tabs."},
{"property": "C130", "status": "proved", "theorems": ["C130_calls", "C130_first_refuted"], "note": "If each pattern number of as_parse has a row with unused classes only, as_match has the failure row only and as_standardize no answer. Refuted: a row in the first tokenization only."},
{"property": "C131", "status": "proved", "theorems": ["C131_match", "C131_standardize", "C131_no_rows_refuted"], "note": "as_match has a row for each derivation of a choice of classes from the rows of as_parse with one number, and no others; as_standardize has an answer exactly if there is one. Refuted when as_parse has no rows."},
{"property": "C132", "status": "proved", "theorems": ["C132_row", "C132_clear", "C132_tabs_refuted"], "note": "The pattern of as_standardize is that of an unbeaten derivation of the rows of as_parse with one number; without tabs the fields are the standard words of those rows. Which of several equally good ones is chosen is not said here (C79). Refuted for the fields with tabs."},
{"property": "C133", "status": "proved", "theorems": ["C133_calls", "C133_line", "C133_references", "C133_first_refuted"], "note": "Grammars that differ in such rules only give the same as_match and as_standardize. C133_calls compares the grammars as loaded, C133_line adds a rule line to a text behind another. C133_references adds a line of references to a section of such rules only. Refuted for the rows of the first tokenization."},
{"property": "C134", "status": "proved", "theorems": ["C134_line", "C134_entry", "C134_blank", "C134_twice", "C134_unrelated", "C134_more", "C134_front_refuted", "C134_comment_refuted"], "note": "The added line stands behind the header or a line beginning with LEXENTRY:, with its line feed. C134_unrelated needs the conditions of C92 (readable_with, a nonempty word in the lexicon). C134_more needs those of C119 (at most 2^32 choices of classes). Refuted for entry lines in front of the header and for comments."}
]}
