{"claims": [
{"property": "C01", "status": "proved", "theorems": ["C01_deque_refines_list"], "note": "full refinement of the ring buffer to an unbounded list"},
{"property": "C02", "status": "proved", "theorems": ["C02_any_calls_tile", "C02_slice_next_tiles"], "note": "reader and slice input, any breakers, any mixture of Next/BoundedNext, after any earlier use of the segmenter; the text shown is the segment cut to the buffer limit (see C11)"},
{"property": "C03", "status": "proved", "theorems": ["C03_nothing_lost_slice", "C03_nothing_lost_reader"], "note": "for breakers obeying the contract whose active match at end of text is at most one rune and which permit a break after the last rune"},
{"property": "C04", "status": "partial", "theorems": ["C04_segments_nonempty_real", "C04_bounded_delivers_marker_refuted", "C04_bounded_empty_segment_refuted"], "note": "proved for Next(); for BoundedNext the end marker 0 and empty segments are delivered (two witnesses)"},
{"property": "C05", "status": "proved", "theorems": ["C05_breaks_exactly_where_permitted_slice", "C05_breaks_exactly_where_permitted_reader", "C05_contract_needed_refuted"], "note": "segments and Penalties() equal the cut of the text at the positions whose summed penalties permit a break, for all breakers obeying the contract; without the contract a witness shows the claim fails"},
{"property": "C06", "status": "proved", "theorems": ["C06_primary_breaks_kept", "C06_two_segmenters"], "note": "on the break positions that the loop delivers by C05, and for two segmenters side by side"},
{"property": "C07", "status": "partial", "theorems": ["C07_bounded_partial", "C07_bound_exceeded_refuted", "C07_false_without_error_refuted"], "note": "bound respected until the end of text is read, exceeded by at most one afterwards; refuted as stated (witness \"abc\", bound 2), and false without error (witness)"},
{"property": "C08", "status": "partial", "theorems": ["C08_uninitialised_panics_refuted"], "note": "refuted: every call on an uninitialised segmenter panics (nil deque)"},
{"property": "C09", "status": "partial", "theorems": ["C09_reinit_fresh_partial", "C09_blank", "C09_stale_error_refuted", "C09_stale_breaker_refuted"], "note": "input, look-ahead, break position and output buffer are fresh after any history; refuted for the error value and for the breakers' own state"},
{"property": "C10", "status": "partial", "theorems": ["C10_reader_and_slice_agree_partial"], "note": "same segments and penalties for any breakers; the reader variant shows at most 4096 runes (buffer limit) of each segment"},
{"property": "C11", "status": "partial", "theorems": ["C11_silent_cut_refuted", "C11_default_buffer_refuted", "C11_within_limit_complete_partial"], "note": "refuted: a client buffer or the default limit silently cuts (for every word > 4096 runes); proved complete within the limit"},
{"property": "C12", "status": "proved", "theorems": ["C12_maximal_runs_slice", "C12_maximal_runs_reader", "C12_runs_are_maximal"], "note": "slice: unconditional; reader: runs up to 4096 runes (the cut of longer runs is C11)"},
{"property": "C13", "status": "proved", "theorems": ["C13_each_subscriber_one_event", "C13_history_never_panics"], "note": "one RuneEvent per subscriber (delivery log), and no history of subscribe/publish panics"},
{"property": "C14", "status": "proved", "theorems": ["C14_released_exactly_once", "C14_finished_out_others_stay"], "note": "per publish and over whole histories, with identities"},
{"property": "C15", "status": "proved", "theorems": ["C15_penalties_are_sums", "C15_history_refines_bag", "C15_order_independent"], "note": "sums for arbitrary (also communicating) subscribers; order independence for subscribers without shared state"},
{"property": "C16", "status": "proved", "theorems": ["C16_queue_partition", "C16_no_panic"], "note": "over all operation sequences from the empty queue"},
{"property": "C17", "status": "partial", "theorems": ["C17_contributes_at_most_once", "C17_accept_or_nothing", "C17_pool_is_clean", "C17_finished_recognizer_silent_refuted"], "note": "at most one contribution per recogniser in every publisher history, exactly the accepted penalties; the clause that a finished recogniser ignores further runes is refuted (it returns its penalties again), only the publisher's release prevents double counting"},
{"property": "C18", "status": "proved", "theorems": ["C18_rules_but_GB9b", "C18_grapheme_clusters", "C18_grapheme_clusters_reader", "C18_nul_refuted"], "note": "all texts, any class tables, slice and reader; equality with the rule list of UAX#29; NUL (excluded in the property) is shown to be treated as an ordinary character"},
{"property": "C19", "status": "partial", "theorems": ["C19_break_after_prepend_refuted", "C19_witness_refuted"], "note": "refuted: the breaker always breaks after Prepend (10000 - 10 is below the infinite penalty); general theorem and witness"},
{"property": "C20", "status": "proved", "theorems": ["C20_grapheme_flags_pair_up", "C20_word_flags_pair_up"], "note": "grapheme breaker and word breaker, every run length and any context"},
{"property": "C21", "status": "partial", "theorems": ["C21_lossless_partial", "C21_lossless_all_rules_partial", "C21_replacement_character_refuted", "C21_long_cluster_refuted", "C21_every_string", "C21_lossless_iff", "C21_right_iff"], "note": "Proved for valid text without U+FFFD, up to 65534 bytes and clusters of at most 4096 runes (GB9b as in C19); refuted for texts with U+FFFD (nothing behind it is indexed) and for longer clusters (all later indices are shifted). C21_every_string gives all graphemes of every byte sequence below the limit that begins with a legal rune; C21_lossless_iff and C21_right_iff say exactly when they make up the text, and when they are the clusters."},
{"property": "C22", "status": "partial", "theorems": ["C22_legal_start_partial", "C22_panics_refuted", "C22_diverges_refuted", "C22_outcome"], "note": "Complete: for every byte sequence below the limit the call returns exactly if the first bytes are a legal rune other than U+FFFD, panics if they are not (also on the empty string), and never returns if the first byte is a continuation byte (C22_outcome). Refuted as stated by the latter two."},
{"property": "C23", "status": "partial", "theorems": ["C23_first_rune_legal_partial", "C23_nothing_legal_partial", "C23_right_iff", "C23_skipped_prefix_refuted", "C23_diverges_refuted"], "note": "Exactly when the answer is right: the first bytes are a legal rune other than U+FFFD, or nothing is legal and the first byte is not a continuation byte (C23_right_iff). Refuted otherwise: a legal rune behind an invalid byte is not found; never returns if the first byte is a continuation byte."},
{"property": "C24", "status": "partial", "theorems": ["C24_rules_but_WB7b", "C24_word_boundaries_partial", "C24_word_boundaries_reader_partial", "C24_WB7b_refuted", "C24_WB3c_letter_refuted"], "note": "all texts: the rules hold except that WB7b needs the Hebrew letter directly after the double quote (refuted otherwise), and WB3c fails for pictographics that are also letters (refuted, U+2139); without ignored characters after double quotes: exact"},
{"property": "C25", "status": "proved", "theorems": ["C25_break_after_hard_break", "C25_no_break_in_crlf", "C25_no_break_before_hard_break"], "note": "LB4-LB6 for every text, in terms of the boundaries the segmenter delivers; before a hard break there is no break unless another hard break precedes (LB4/LB5 win over LB6)."},
{"property": "C26", "status": "partial", "theorems": ["C26_no_break_before_space", "C26_no_break_before_mark", "C26_space_after_hard_break_refuted"], "note": "LB7 and LB9 for every text; the only exception to LB7 is a space directly behind a hard break (C26_space_after_hard_break_refuted), as LB4 and LB5 demand."},
{"property": "C27", "status": "partial", "theorems": ["C27_width_range", "C27_width_stable", "C27_string_width_is_sum", "C27_additive", "C27_invalid_diverges_refuted", "C27_zero_width_refuted", "C27_every_string", "C27_no_graphemes"], "note": "range, sum over clusters and additivity proved for every resolver outcome and every valid text without U+FFFD (clusters up to 4096 runes); the width of every byte sequence that begins with a legal rune is given exactly (C27_every_string); refuted against the documentation: no return for a leading continuation byte, zero-width runes get 1 or 2"},
{"property": "C28", "status": "partial", "theorems": ["C28_recorded", "C28_right_iff", "C28_lookup_exact", "C28_recorded_nested", "C28_pairs_of_BD16_partial", "C28_no_pair_missing_partial", "C28_bracket_found_partial", "C28_pairs_nested", "C28_overflow_refuted", "C28_canonical_equivalence_refuted", "C28_order_refuted", "C28_text_partial"], "note": "Exact for every text, however many brackets are open and however mixed: the recorded pairs are those of BD16 with brackets matched by identity, except that an opening bracket that meets 63 open ones is skipped (C28_recorded), they never cross, and a lookup finds exactly the pair of a bracket (C28_lookup_exact). Without a mixture of canonically equivalent brackets they are the pairs of BD16 exactly if nothing is paired behind the bracket at which BD16 stops (C28_right_iff), in particular with at most 63 open; also from the scanned text (no isolates). Refuted: after the 64th open bracket BD16 stops, the code goes on; U+2329/U+3009 are not paired; pairs are not sorted."},
{"property": "C29", "status": "partial", "theorems": ["C29_sheet", "C29_found_section_partial", "C29_lost_section_refuted", "C29_dictionary_prepared", "C29_lookup_partial", "C29_match_partial", "C29_lost_rules_refuted"], "note": "Proved for every sequence of classes: lookup finds exactly the 19 rules of the list stored; the list of all 23 rules is the one UAX#9 prescribes (C29_sheet, against an independent table), and lookup finds the rule of the governing section for all but four sequences. Refuted for N1-5, N1-6, N1-8, N1-9, which are lost when the trie relocates their families after they have been stored."},
{"property": "C30", "status": "partial", "theorems": ["C30_nested_partial", "C30_second_isolate_refuted", "C30_covers_partial", "C30_runs_partial", "C30_number_lost_refuted", "C30_arabic_number_lost_refuted", "C30_isolate_doubled_refuted", "C30_unmatched_PDI_refuted"], "note": "Proved for all paragraphs without isolates, first character not NSM, European numbers only in left-to-right context, and Arabic numbers only directly after a non-neutral or in a text without R/AL; also for the runs after Reorder. Refuted otherwise: a number after R and a neutral is dropped, an empty isolate at the end is doubled, an unmatched PDI ends the text. With isolates (C30_nested_partial): for closed, roomy, quiet texts the scraps tile the text, the isolates are children that tile their part, to any depth, and every isolate character occurs once in its place; refuted for two isolates at the very end of the text."},
{"property": "C31", "status": "partial", "theorems": ["C31_nested_partial", "C31_terminates_partial", "C31_diverges_refuted"], "note": "Termination with a quadratic bound for the texts of C30; refuted in general: R WS EN WS EN runs forever in pass 1 (for every number of rounds). Also for the texts with isolates of C30_nested_partial."},
{"property": "C32", "status": "proved", "theorems": ["C32_reverse_in_place", "C32_automaton_in_place", "C32_isolate_in_place", "C32_reversal", "C32_once", "C32_rule_L2_ltr_partial", "C32_rule_L2_rtl", "C32_adjacent_numbers_refuted", "C32_isolates_partial", "C32_isolates_once_partial", "C32_isolates_L2_partial", "C32_isolate_in_R_refuted", "C32_nested_isolates_refuted"], "note": "For every list of scraps without children, both embeddings: no panic, alternating non-empty runs, every position once, and the order is the reversal of every maximal block above the embedding level. Also compared with rule L2 of UAX#9: equal for right-to-left paragraphs, and for left-to-right ones without adjacent number scraps; adjacent EN and AN come out in the wrong order (refuted). Beyond the property, with isolates nested to any depth: the runs are the text in the order of the specification, every position once, if no isolate begins in the direction of the text before it (C32_isolates_partial); the order is that of L2 by levels for isolates one deep against the direction of the paragraph (C32_isolates_L2_partial); refuted for isolates in text against the direction of the paragraph and for an RLI in an RLI. The loops of reverse and of the automaton, index by index and in place, are proved to do what the list functions say (C32_reverse_in_place, C32_automaton_in_place, C32_isolate_in_place)."},
{"property": "C33", "status": "partial", "theorems": ["C33_resolved_lines_partial", "C33_lines_partial", "C33_split_flat_partial", "C33_empty_rest_refuted", "C33_gap_refuted", "C33_nested_refuted", "C33_shift_refuted", "C33_embedding_refuted"], "note": "Any number of ascending cuts within a paragraph with isolates nested to any depth: no panic and the top-level scraps of each line cover exactly its positions; shift for flat paragraphs. Refuted: a cut at the end leaves an empty rest whose Split panics; a position before the rest panics; isolates right of the cut stay in the first part; the copied initiator is in both parts; children are not shifted; the embedding direction is lost. Any paragraph with isolates resolved under C30_nested_partial can be cut at any ascending positions."},
{"property": "C34", "status": "partial", "theorems": ["C34_lengths_partial", "C34_equal_direction_refuted", "C34_leading_isolate_refuted", "C34_isolates_partial", "C34_lost_run", "C34_text_isolates_partial"], "note": "Proved for every paragraph without nested isolates. For every well-formed tree of isolates: the lengths add up exactly if no isolate begins in the direction of the text before it (C34_isolates_partial); also from the text (C34_text_isolates_partial). Otherwise refuted: the first run of an isolate with the direction of the text before loses its length; a paragraph beginning with an LRI isolate panics."},
{"property": "C35", "status": "partial", "theorems": ["C35_reverse_in_place", "C35_history", "C35_no_panic", "C35_undisturbed_partial", "C35_independent_partial", "C35_iteration", "C35_reverse_first_partial", "C35_reverse_refuted"], "note": "C35_history gives every answer of every iterator for all sequences of calls, reversing iterators included, as a function of the calls before it; no call on an existing iterator panics; a loop over an iterator sees every segment once and in order, then the end for ever, whatever other iterators do meanwhile, as long as no reversing iterator is made during the loop. Refuted: a reversing iterator reverses the segments all iterators share. The reversing loop in place is proved to reverse all segments."},
{"property": "C36", "status": "partial", "theorems": ["C36_isolate_classes_partial", "C36_mark_after_FSI_refuted", "C36_tiles_partial", "C36_bytes_partial", "C36_leading_mark_refuted", "C36_invalid_bytes_refuted", "C36_empty_partial", "C36_classes_partial"], "note": "Proved: for every paragraph of less than 4 GB whose first character is not a non-spacing mark, every property table, mode and markup, the scraps sent tile the text, followed by the stopper; for valid UTF-8 the positions are those of the bytes. For the texts of C30 the scraps are the maximal runs of the classes after W1 and W3 (C36_classes_partial). Refuted by the code: a leading non-spacing mark is lost, and ill-formed bytes count three positions each. The concurrent sending is C37. With isolates: C36_isolate_classes_partial. Marks after LRI, RLI and PDI follow W1. Refuted: a mark after an FSI becomes another FSI (W1)."},
{"property": "C37", "status": "partial", "theorems": ["C37_terminates_partial", "C37_schedules", "C37_empty_refuted", "C37_marks_refuted", "C37_unmatched_PDI_refuted"], "note": "For every text for which resolution ends, all schedules end alike and the scanner has terminated iff all its messages were received (C37_schedules). Holds for the calm texts of C30; refuted for the empty text, for texts of marks only and for an unmatched PDI, where the scanner stays blocked in a send."},
{"property": "C38", "status": "partial", "theorems": ["C38_all_but_the_last_block_partial", "C38_sentinel_partial", "C38_refuted", "C38_R16_refuted"], "note": "exact contents proved for every sorted sequence: the last block is missing and NUL is added; refuted as stated; R16 may contain U+10000 (refuted)"},
{"property": "C39", "status": "partial", "theorems": ["C39_line_breaks_of_code", "C39_five_deviations", "C39_line_breaks_partial", "C39_line_breaks_no_marks_partial", "C39_line_breaks_reader_partial", "C39_LB8a_refuted", "C39_LB21a_refuted", "C39_LB30a_refuted", "C39_LB25_refuted"], "note": "Exact characterisation of the code for every text; equal to UAX#14 for all texts except in five contexts with combining marks, each refuted by a witness. Class tables are an oracle (uax14classes.go is generated and not in the repository)."},
{"property": "C40", "status": "partial", "theorems": ["C40_too_long_refuted", "C40_every_file", "C40_lines_partial", "C40_lines_exist"], "note": "Exact for every file, every sequence of read sizes and every ending of the reader (C40_every_file): all lines and the reader's error if no 64K bytes lack a line feed; otherwise refuted: the lines in front of the first such stretch, then ErrTooLong (bufio.Scanner's limit), even where carriage returns divide the stretch."},
{"property": "C41", "status": "partial", "theorems": ["C41_tokens", "C41_single", "C41_items_partial", "C41_empty_field_refuted", "C41_last_digit_refuted", "C41_comment_refuted", "C41_indented_refuted"], "note": "For every file the tokens are given exactly, line by line, and for a single code point exactly when it is read as written. The meaning of the file format is proved for well-formed items with ASCII fields and one # at most in front of the comment. Refuted: an empty first field shifts the others, a line ending behind the digits loses the last digit, a number before a character of several bytes is an error, comments end at a second #, indented items are read as NUL or dropped."},
{"property": "C42", "status": "partial", "theorems": ["C42_returns_iff", "C42_ends_partial", "C42_failing_reader_refuted"], "note": "Parse returns exactly if the reader ends with EOF and no 64K bytes lack a line feed (C42_returns_iff); otherwise, with a failing reader or an over-long line, it panics or hands out tokens for ever, for all inputs (refuted)."},
{"property": "C43", "status": "partial", "theorems": ["C43_any", "C43_panics_iff", "C43_tables_partial", "C43_printed_partial", "C43_refuted", "C43_field_1_refuted"], "note": "For every file each table is collected from exactly the ranges of the tokens of its category (C43_any); for well-formed files these are the items. Below field 2 the generator panics exactly if some line is read without an error. Composed with C38, the printed table lacks its last block and contains NUL (refuted as stated)."},
{"property": "C44", "status": "partial", "theorems": ["C44_any", "C44_brackets_partial", "C44_repository"], "note": "For every file without 64K bytes between line feeds the pairs are given by its tokens (C44_any); for well-formed files they are those of the file, and the repository's table is reproduced from the repository's file."},
{"property": "C45", "status": "partial", "theorems": ["C45_scans", "C45_reported_iff", "C45_break_any", "C45_break_complete_iff", "C45_break_words", "C45_decodes_unique", "C45_break_test", "C45_unclosed_refuted", "C45_bad_word_refuted", "C45_test_file_partial", "C45_stale_refuted"], "note": "Exact for every file of lines and every text: call number k of Scan answers true exactly for the lines that are no comments, with the last text and the last comment given so far (C45_scans), so a test is reported as written exactly if it is not empty and has a comment or nothing older shows through (C45_reported_iff); the segments of a break test are the groups closed by a break sign (C45_break_any) and make up the text exactly if nothing follows the last sign. C45_break_words says the same with words between Unicode white space and hexadecimal numbers. Well-formed tests give the text and its segments in UTF-8. Refuted: a test without closing sign loses its last segment; stale text or comment."},
{"property": "C46", "status": "partial", "theorems": ["C46_keycaps_wide_refuted", "C46_ascii_partial", "C46_width_value", "C46_uax11_partial", "C46_neutral_wide_refuted", "C46_digit_wide_refuted", "C46_right_iff"], "note": "C46_width_value gives the width of every grapheme that begins with a legal character, in every context. It is the width UAX#11 recommends for characters that are neither emoji nor neutral (C46_uax11_partial), and exactly for these and those wide in UAX#11 (C46_right_iff). Refuted: neutral characters are wide in an East Asian context, and digits, # and * are wide everywhere, for they have the emoji property."},
{"property": "C47", "status": "partial", "theorems": ["C47_isolates_partial", "C47_isolate_direction_refuted", "C47_isolate_neutrals_refuted", "C47_isolate_number_refuted", "C47_resolved_partial", "C47_runs_partial", "C47_start_refuted", "C47_W2_adjacent_refuted", "C47_W2_forever_refuted", "C47_W4_refuted", "C47_N1_numbers_refuted", "C47_N1_group_refuted", "C47_brackets_partial", "C47_bracket_runs_partial", "C47_before_bracket_refuted"], "note": "Proved for all paragraphs over L, R, AL, EN, ES, ET, CS, S, WS, ON, NSM (first not NSM) with numbers only in left-to-right context and tidy groups of neutrals: the resolver terminates, each byte gets the class of W1-W7, N1, N2, and the runs of Reorder have these directions. Proved also with paired brackets (W1-W7, N0, N1, N2) for texts over L, R, S, WS, ON, NSM below 64 KB in which the pairs get the class the code looks for and neutrals before brackets get the embedding direction. Refuted otherwise by closed counter-examples: start of a right-to-left paragraph, W2 (two), W4, N1 (two), a neutral before a bracket. Proved also for left-to-right paragraphs with LRI and RLI isolates (nested in LRI to any depth, not in RLI, none directly behind another, tidy neutrals at every level): each byte gets the class UAX#9 gives it in its own isolating run sequence (C47_isolates_partial). With isolates three further counter-examples: N2 in a right-to-left paragraph, N1 with a space beside the isolate, W7 after an isolate."},
{"property": "C48", "status": "partial", "theorems": ["C48_faithful_partial", "C48_doubles_refuted", "C48_loses_refuted"], "note": "Proved for any stack and position: W4, W5, W6, N1 between letters, N2, the joining rules, and W7 in left-to-right context. Refuted, again for any stack: W7 outside left-to-right context and N1-6, N1-7, N1-9, N1-10 double the scraps behind; N1-3, N1-4, N1-5, N1-8 lose the third scrap."},
{"property": "C49", "status": "partial", "theorems": ["C49_one_class", "C49_lookup_partial", "C49_names", "C49_cross", "C49_letter_pictographics_refuted", "C49_nul_refuted", "C49_hangul", "C49_hangul_text", "C49_fffd_refuted"], "note": "Exclusive tables, lookup, Hangul and regional indicators proved for all code points. Refuted: NUL is taken for the end of text; six letters are not seen as pictographic by WB3c; U+FFFD is in the table of Control, so a mark after it is cut off."},
{"property": "C50", "status": "partial", "theorems": ["C50_words_of_clusters_partial", "C50_divided_cluster_refuted"], "note": "Proved at the level of the two segmenters for texts without SARA AM (Thai, Lao), the six letters of C49 and marks behind regional indicators. Each exception divides a cluster (refuted)."},
{"property": "C51", "status": "proved", "theorems": ["C51_ascii_clusters", "C51_ascii_words"], "note": "Both segmenters, with the tables of the repository, for all ASCII texts."},
{"property": "C52", "status": "partial", "theorems": ["C52_inclusions", "C52_class", "C52_shadowed_refuted"], "note": "Class and inclusions proved; refuted: the classes Emoji_Presentation, Emoji_Modifier and Emoji_Modifier_Base are never returned, as their code points are also of class Emoji, which is looked up first."},
{"property": "C53", "status": "partial", "theorems": ["C53_lists_partial", "C53_program_partial", "C53_fixed", "C53_no_program_refuted", "C53_surrogates_refuted", "C53_spelling_refuted", "C53_errors_refuted", "C53_any"], "note": "For every file the lists are given by its tokens (C53_any). For every well-formed file: the lists loaded hold exactly the code points of each class (C53_lists_partial), and the text written reads, under an independent lexer and interpreter for the Go subset, as assignments of exactly these lists in any order (C53_program_partial). Refuted: the document token gives a class without name, so the text is not Go for any file with an item; surrogates become U+FFFD; a class spelled with and without blank loses code points; errors are never reported."},
{"property": "C54", "status": "proved", "theorems": ["C54_names", "C54_index_partial", "C54_numbers", "C54_repository", "C54_distinct"], "note": "String, numbering, start indices for every list of names; repository texts compared byte by byte; names distinct for every int64. Start indices must be below 2^16 (otherwise the array does not compile)."},
{"property": "C55", "status": "partial", "theorems": ["C55_new", "C55_found", "C55_distinct", "C55_position_partial", "C55_stable", "C55_position_refuted", "C55_frozen", "C55_live", "C55_lookup_stores_refuted", "C55_frozen_iterator"], "note": "For every size and list of words: found words, distinct positions, frozen lookups, absence of other failures than giving up; also for stores and lookups in any order before Freeze (C55_live). Positions are kept exactly as long as no family is relocated; refuted otherwise, in particular for the Bidi rules. Refuted: before Freeze a lookup stores the word it looks for instead of answering 0."},
{"property": "C56", "status": "partial", "theorems": ["C56_is", "C56_generated_partial", "C56_latin_partial", "C56_latin_refuted", "C56_one_block_refuted", "C56_repository", "C56_shaping", "C56_exclusive_partial", "C56_nul_refuted", "C56_source", "C56_compiles_iff", "C56_package_partial", "C56_compiles_refuted", "C56_empty_refuted", "C56_repository_source"], "note": "Proved for every sorted list of ranges above U+0001: the printed file, read as Go source (tokens, semicolons, declarations, constant overflow), compiles exactly if no block but the last one of a category ends at U+10000 (C56_compiles_iff), declares exactly the collected tables, and unicode.Is of a variable finds exactly the data without the last block, and NUL. If no range touches U+10000 the tables are legal and LatinOffset is right if printed. The files of package shaping are reproduced byte by byte and read back; legal and exclusive apart from NUL. Refuted: NUL is in every table, the last block of every category is lost (a category of one block has an empty table), LatinOffset missing for Latin-1 tables, a range ending at U+10000 gives a file that does not compile."},
{"property": "C57", "status": "proved", "theorems": ["C57_primes", "C57_dictsize"], "note": "Table transcribed from primes.go; primality by trial division proved against Znumtheory.prime."},
{"property": "C58", "status": "partial", "theorems": ["C58_embedding_partial", "C58_adjacent_isolates_refuted", "C58_first_strong_refuted", "C58_strong_partial", "C58_strong_refuted", "C58_strong_isolates_partial", "C58_before_isolate_refuted", "C58_first_in_isolate_refuted"], "note": "Direction of the innermost isolate for every text in which no PDI directly precedes an initiator; last strong class in the isolating run sequence for texts without AL and FSI in which every initiator stands behind a run that is neither strong nor an isolate character (and for all texts without isolates and AL). Refuted: adjacent isolates leak their context, FSI, sos in right-to-left paragraphs, strong class after AL, a strong run directly before an isolate is forgotten, an isolate at the beginning of another one."},
{"property": "C59", "status": "partial", "theorems": ["C59_bracket_class_partial", "C59_sos_refuted", "C59_earlier_pair_refuted", "C59_after_AL_refuted", "C59_neutral_bracket_refuted", "C59_number_refuted", "C59_mark_refuted", "C59_isolates_partial", "C59_before_isolate_refuted", "C59_last_isolate_refuted"], "note": "For texts without AL below 64 KB, also with isolates (LRI, RLI, each behind a run that is neither strong nor an isolate character), performRuleN0 gives the pair the class of N0 for L and R from the runs of its isolating run sequence, and the closing bracket the class of the opening one. Refuted: sos, earlier pairs, AL, numbers, neutral brackets, marks after brackets, brackets in the last isolate of a text, a strong run directly before an isolate."},
{"property": "C60", "status": "partial", "theorems": ["C60_some_option", "C60_last_option_partial", "C60_order", "C60_retreat_refuted"], "note": "A setting is on exactly if some option switches it on, in any order; last option wins if none is taken back. Refuted: a setting cannot be switched off."},
{"property": "C61", "status": "proved", "theorems": ["C61_names", "C61_distinct", "C61_levels", "C61_runs", "C61_scrap"], "note": "Names follow an independent table and are injective; texts of levels, runs and scraps determine classes and boundaries; no panic."},
{"property": "C62", "status": "partial", "theorems": ["C62_environment", "C62_predefined", "C62_reuse_refuted"], "note": "Environment and predefined contexts proved. Refuted: a context that has been used ignores later changes of its fields."},
{"property": "C63", "status": "partial", "theorems": ["C63_same_text", "C63_scan_partial", "C63_resolve_partial", "C63_isolates_partial", "C63_start", "C63_start_refuted"], "note": "Scan and ResolveParagraph with markup equal those of the text with delimiters of length 0, for every documented markup function without delimiter at position 0. Refuted at position 0, where the function is never asked."},
{"property": "C64", "status": "proved", "theorems": ["C64_buffer", "C64_segment", "C64_memory"], "note": "For all call sequences, by refinement to an abstract buffer. A read beyond the given text is a panic in the model (the caller's slice is assumed to have no spare capacity)."},
{"property": "C65", "status": "partial", "theorems": ["C65_order", "C65_range", "C65_match", "C65_rules", "C65_LB24_refuted"], "note": "For all rule numbers, all state functions, all match lengths. LB24 has the weight of LB23 (C65_LB24_refuted). math.Pow(1.3, n) is modelled by the exact power truncated."},
{"property": "C66", "status": "partial", "theorems": ["C66_graphemes", "C66_lines", "C66_words_partial", "C66_words_refuted", "C66_simple_words"], "note": "Graphemes, lines and simple words: every text. Words: texts without an ignored character behind a double quote; refuted otherwise (a Hebrew letter, a double quote, a mark and a Hebrew letter)."},
{"property": "C67", "status": "partial", "theorems": ["C67_no_isolates_partial", "C67_calm_partial", "C67_no_brackets_partial", "C67_mixed_partial", "C67_schedule_refuted", "C67_race_refuted"], "note": "For texts without isolates, and for texts without numbers whose brackets are all outside of the isolates (nested in any way, closed or not), every schedule ends with the same levels, both goroutines terminated, and no race on the table of isolating run sequences; for texts without brackets every schedule ends with the same levels. Refuted in general: two schedules with different levels for brackets inside an isolate; a reachable configuration in which the parser reads the map while the scanner writes it."},
{"property": "C68", "status": "partial", "theorems": ["C68_handler_partial", "C68_pairs_partial", "C68_pairs_refuted"], "note": "Proved for every text in which each PDI has an initiator and the first character is not one, for all brackets outside of the last isolate (for these: handler of the sequence, partner of BD16). Refuted for the last isolate, for a PDI without initiator and for an initiator at the beginning."},
{"property": "C69", "status": "proved", "theorems": ["C69_graphemes", "C69_words", "C69_lines", "C69_simple_words", "C69_two_needed"], "note": "Every text: graphemes and simple words keep all segments but the last, words and lines all but the last two; C69_two_needed shows that two are needed."},
{"property": "C70", "status": "proved", "theorems": ["C70_unread_input", "C70_new_segmenter"], "note": "All calls in every state, all breakers, input from a reader."},
{"property": "C71", "status": "partial", "theorems": ["C71_bytes_is_text", "C71_graphemes", "C71_words", "C71_lines", "C71_simple_words_partial", "C71_valid", "C71_repaired_fun", "C71_repaired_same"], "note": "Proved for every byte string and class table; a segment longer than 4096 runes is cut (C11), undecodable bytes come out as U+FFFD (refuted there by a closed example), and the simple word breaker needs a text without NUL."},
{"property": "C72", "status": "partial", "theorems": ["C72_graphemes", "C72_simple_words_partial", "C72_words", "C72_lines"], "note": "Proved for every text and class table and every number of calls; the simple word breaker needs a text without NUL."},
{"property": "C73", "status": "proved", "theorems": ["C73_set_before_use", "C73_limit", "C73_limit_after_init", "C73_no_allocation"], "note": "RuneBuffer/Buffer panic exactly after a call of Next since Init, for every history; shown length limited to the larger of max and cap(buf), buffer set before or after Init; capacity bounds, no allocation if max <= cap(buf)."},
{"property": "C74", "status": "partial", "theorems": ["C74_bounded", "C74_text_lost_refuted", "C74_panic_refuted", "C74_stale_bound_refuted", "C74_copy_after_error_refuted"], "note": "Exact result of one bounded search after any number of segments, and of the loop of Next behind it, for slices and breakers that obey the contract (C74_bounded). Refuted as stated: once the end of the text has been read, a bound within a segment delivers one rune too many and loses the rest, and a bound at the end lets Text() panic after the next Next; a bound behind the segment may cut the next one; after ErrBoundReached segments are limited by the buffer"},
{"property": "C75", "status": "partial", "theorems": ["C75_scrap", "C75_runs_partial", "C75_neutral_refuted", "C75_uax9_partial", "C75_brackets_partial", "C75_isolates", "C75_inside_isolate_refuted", "C75_split"], "note": "Direction of the scrap with the position, and stability under Split: all levels. Paragraphs without isolates: the direction of the run, exactly if the text around is left-to-right or all classes have a direction. From the text: the direction of UAX#9 for the texts of C47, also with brackets; with isolates the direction of the text around the isolate. Refuted within isolates and for BN and embeddings in right-to-left paragraphs."},
{"property": "C76", "status": "partial", "theorems": ["C76_sequential", "C76_concurrent", "C76_safe_iff", "C76_once", "C76_race_free", "C76_race_free_partial", "C76_race_refuted", "C76_width_refuted", "C76_grapheme_breaker_refuted", "C76_unsynchronised_refuted", "C76_after_main"], "note": "Any number of goroutines with any calls and any schedule: no goroutine panics exactly if each sets up what it needs by itself; then all find the classes of complete tables, each table is created once, no deadlock, a bounded number of steps. No data race without the constructors of word and line breakers; with these only the nil check races with the creation of the table, and nothing if the tables are set up before the goroutines start (C76_after_main). Refuted: that race, uax11.Width and grapheme breakers without set-up, look-ups while another goroutine does the set-up. Sequentially consistent memory."},
{"property": "C77", "status": "proved", "theorems": ["C77_independent", "C77_any_rules", "C77_unseen", "C77_exclusive", "C77_as_new", "C77_footprint", "C77_race_free"], "note": "For any number of grapheme, word and line breakers sharing the pool, any texts and class tables, any interleaving and any choice of the pool: the answers are those of each breaker alone, none panics, each can always go on (C77_independent); the same for any rules (C77_any_rules); a step is unseen by the others (C77_unseen); each object is at exactly one place and cleared in the pool (C77_exclusive); a pooled recogniser is as a new one (C77_as_new); what a step depends on and changes (C77_footprint), so that two breakers never touch the same object outside of the pool (C77_race_free). Steps: subscribe one rule, one event, release one recogniser; the pool library itself is trusted to hand out an object once."},
{"property": "C78", "status": "partial", "theorems": ["C78_graphemes", "C78_words", "C78_lines_partial", "C78_lines_refuted", "C78_no_overflow"], "note": "Proved for graphemes (at most 2 active recognisers) and words (at most 13). Refuted for lines: one recogniser stays for every digit of a number (C78_lines_refuted); the bound there is 12 plus the run of number characters before."},
{"property": "C79", "status": "partial", "theorems": ["C79_two_breakers_partial", "C79_two_breakers_reader_partial", "C79_graphemes_and_words", "C79_repository_tables", "C79_order_partial", "C79_two_secondaries_refuted", "C79_lines_and_spaces_refuted", "C79_disagreeing_tables_refuted"], "note": "proved for any two breakers (C79_two_breakers_partial, for readers C79_two_breakers_reader_partial, order C79_order_partial; for all texts with graphemes and words C79_graphemes_and_words, with the tables of the repository C79_repository_tables), where a line breaker asks that the tables agree about CR; refuted for two secondary breakers, whose penalties are added up (C79_two_secondaries_refuted), for lines with simple words around LF CR LF (C79_lines_and_spaces_refuted), and for tables that disagree about CR (C79_disagreeing_tables_refuted)"},
{"property": "C80", "status": "partial", "theorems": ["C80_reported_is_mandatory", "C80_mandatory_is_reported_partial", "C80_end_is_reported_partial", "C80_reader", "C80_mandatory_breaks_refuted", "C80_end_refuted"], "note": "A penalty of -10000 or less is given to mandatory breaks only and optional breaks have more than -1000, for all texts and tables. The converse fails in the code (refuted); proved is exactly where it holds: behind LF, BK, NL unless one of 17 classes follows, behind CR unless one of 5 classes follows, always behind CR LF; at the end of the text unless one of 8 classes is last. Readers deliver the same penalties."},
{"property": "C81", "status": "partial", "theorems": ["C81_reported_is_hard", "C81_hard_is_reported_partial", "C81_reader", "C81_before_CR_refuted"], "note": "A penalty of -10000 or less is given only to breaks of GB4 and GB5, all other breaks have -10, or 9990 behind Prepend: for all texts and tables, slices and readers. The converse is proved for all of these breaks but those before a CR, for which the code violates it (refuted)."},
{"property": "C82", "status": "partial", "theorems": ["C82_reported_is_newline", "C82_newline_is_reported_partial", "C82_reader", "C82_before_CR_refuted"], "note": "A penalty of -10000 or less is given only to breaks of WB3a and WB3b, all other breaks have 10: for all texts and tables, slices and readers. The converse is proved for all of these breaks but those before a CR, for which the code violates it (refuted)."},
{"property": "C83", "status": "proved", "theorems": ["C83_slice", "C83_reader", "C83_unique"], "note": "The sequence of segments and penalties for arbitrary breakers, slices and readers, with an independent relation that determines it."}
]}
