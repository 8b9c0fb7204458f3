{
 "claims": [
  {
   "property": "C01",
   "status": "proved",
   "theorems": [
    "C01_build_exact",
    "C01_build_symbols",
    "C01_get_in_range"
   ],
   "note": "Words are counted with multiplicity; the theorem describes the stored list as the sorted permutation of the given one."
  },
  {
   "property": "C02",
   "status": "proved",
   "theorems": [
    "C02_parent_longest_proper_prefix",
    "C02_chain_is_all_prefixes"
   ],
   "note": "Duplicate-free lists only; with duplicates the parent links are still in range (C03)."
  },
  {
   "property": "C03",
   "status": "proved",
   "theorems": [
    "C03_build_safe"
   ],
   "note": ""
  },
  {
   "property": "C04",
   "status": "proved",
   "theorems": [
    "C04_search_excludes"
   ],
   "note": ""
  },
  {
   "property": "C05",
   "status": "proved",
   "theorems": [
    "C05_search_total",
    "C05_indices_stable"
   ],
   "note": ""
  },
  {
   "property": "C06",
   "status": "proved",
   "theorems": [
    "C06_search_safe_everywhere",
    "C06_empty_query"
   ],
   "note": "For non-empty queries. C06_empty_query: search of the empty query without an exclusion set reads out of bounds, with one it finds nothing."
  },
  {
   "property": "C07",
   "status": "proved",
   "theorems": [
    "C07_word_finds_itself"
   ],
   "note": ""
  },
  {
   "property": "C08",
   "status": "proved",
   "theorems": [
    "C08_learned_index_refuted",
    "C08_learned_index_in_order"
   ],
   "note": "The unconditional statement is false: C08_learned_index_refuted. Proved for symbols learned in increasing order, which is how the streams number them (C17)."
  },
  {
   "property": "C09",
   "status": "proved",
   "theorems": [
    "C09_greedy_lossless",
    "C09_greedy_longest",
    "C09_longest_refuted_after_learning"
   ],
   "note": "Losslessness holds for every reachable dictionary. The longest-match part is proved for dictionaries whose learned symbols arrive in order and is false otherwise: C09_longest_refuted_after_learning."
  },
  {
   "property": "C10",
   "status": "proved",
   "theorems": [
    "C10_greedy_excludes",
    "C10_greedy_excludes_any_state"
   ],
   "note": ""
  },
  {
   "property": "C11",
   "status": "proved",
   "theorems": [
    "C11_greedy_terminates",
    "C11_empty_word_refuted"
   ],
   "note": "False for a dictionary with the empty word (C11_empty_word_refuted, a loop that never advances); proved for all others."
  },
  {
   "property": "C12",
   "status": "proved",
   "theorems": [
    "C12_weighted_lossless",
    "C12_weighted_lossless_double"
   ],
   "note": "Generic in the arithmetic (flaws), instantiated to IEEE binary64."
  },
  {
   "property": "C13",
   "status": "proved",
   "theorems": [
    "C13_weighted_optimal",
    "C13_weighted_optimal_double"
   ],
   "note": "Optimal for the sum as the code computes it, in the order in which it adds; C88 turns this into probabilities."
  },
  {
   "property": "C14",
   "status": "proved",
   "theorems": [
    "C14_greedy_buffer",
    "C14_weighted_buffer",
    "C14_return_is_size"
   ],
   "note": ""
  },
  {
   "property": "C15",
   "status": "proved",
   "theorems": [
    "C15_reparse_without_itself",
    "C15_reparse_refuted_without_symbols"
   ],
   "note": "The proviso is necessary: C15_reparse_refuted_without_symbols."
  },
  {
   "property": "C16",
   "status": "proved",
   "theorems": [
    "C16_decode_encode"
   ],
   "note": ""
  },
  {
   "property": "C17",
   "status": "proved",
   "theorems": [
    "C17_codes_dense",
    "C17_first_occurrence_order",
    "C17_codes_stable"
   ],
   "note": ""
  },
  {
   "property": "C18",
   "status": "proved",
   "theorems": [
    "C18_drops_unknown",
    "C18_all_known"
   ],
   "note": ""
  },
  {
   "property": "C19",
   "status": "proved",
   "theorems": [
    "C19_decode_throws_exactly"
   ],
   "note": ""
  },
  {
   "property": "C20",
   "status": "proved",
   "theorems": [
    "C20_roundtrip",
    "C20_batch",
    "C20_batch_again",
    "C20_refuted_lhs_first"
   ],
   "note": "Proved for the evaluation order of C++17 and of the compilers used with C++14; with the other order that C++14 permits it is false: C20_refuted_lhs_first."
  },
  {
   "property": "C21",
   "status": "proved",
   "theorems": [
    "C21_normal_form",
    "C21_tokenize_chars",
    "C21_char_roundtrip",
    "C21_refuted_non_ascii"
   ],
   "note": "ASCII only: C21_refuted_non_ascii shows that chars above 127 are undefined behaviour (isalnum of a negative char)."
  },
  {
   "property": "C22",
   "status": "proved",
   "theorems": [
    "C22_word_tokens",
    "C22_normalize_identity"
   ],
   "note": ""
  },
  {
   "property": "C23",
   "status": "proved",
   "theorems": [
    "C23_fresh_ids_dense",
    "C23_roundtrip_dense",
    "C23_refuted_sparse"
   ],
   "note": "The unconditional statement is false: C23_refuted_sparse. Proved for maps whose ids are 0..n-1."
  },
  {
   "property": "C24",
   "status": "proved",
   "theorems": [
    "C24_parses_total",
    "C24_mass",
    "C24_mass_double"
   ],
   "note": ""
  },
  {
   "property": "C25",
   "status": "proved",
   "theorems": [
    "C25_pair_counts",
    "C25_packed_table",
    "C25_no_shared_counter"
   ],
   "note": ""
  },
  {
   "property": "C26",
   "status": "proved",
   "theorems": [
    "C26_entropy",
    "C26_refuted_empty"
   ],
   "note": "In exact arithmetic, after at least one symbol; before the first one the double result is NaN (C26_refuted_empty)."
  },
  {
   "property": "C27",
   "status": "proved",
   "theorems": [
    "C27_sorted_words",
    "C27_total",
    "C27_refuted_unsorted"
   ],
   "note": "The supplied frequencies are matched to words by position in the sorted dictionary: true for words given in lexicographic order, false otherwise (C27_refuted_unsorted)."
  },
  {
   "property": "C28",
   "status": "proved",
   "theorems": [
    "C28_update_one",
    "C28_refuted_after_result_freqs"
   ],
   "note": "C28_update_one is for every state reached by parsing and updating; result_freqs() pads one of the two tables only, and then update_symbol reads out of bounds (C28_refuted_after_result_freqs)."
  },
  {
   "property": "C29",
   "status": "proved",
   "theorems": [
    "C29_words_occur",
    "C29_alpha",
    "C29_from_alphabet",
    "C29_double"
   ],
   "note": ""
  },
  {
   "property": "C30",
   "status": "proved",
   "theorems": [
    "C30_complete",
    "C30_double"
   ],
   "note": ""
  },
  {
   "property": "C31",
   "status": "proved",
   "theorems": [
    "C31_size",
    "C31_refuted_exceeds"
   ],
   "note": "The plain bound is false: C31_refuted_exceeds. Proved with the correction for symbols first seen since the previous update, in terms of the size given to the builder."
  },
  {
   "property": "C32",
   "status": "proved",
   "theorems": [
    "C32_expand_only_observed",
    "C32_expand_keeps",
    "C32_reduce_only_removes",
    "C32_reduce_keeps_symbols",
    "C32_expand_keeps_double",
    "C32_refuted_unsorted"
   ],
   "note": "expand on a dictionary that learned symbols out of order is undefined behaviour (C32_refuted_unsorted); the streams never get there (C34)."
  },
  {
   "property": "C33",
   "status": "proved",
   "theorems": [
    "C33_counters",
    "C33_no_overflow"
   ],
   "note": ""
  },
  {
   "property": "C34",
   "status": "proved",
   "theorems": [
    "C34_accept_total",
    "C34_run_total",
    "C34_from_alphabet",
    "C34_double",
    "C34_refuted_small"
   ],
   "note": "False for sizes below the number of distinct symbols: C34_refuted_small. Proved for all others."
  },
  {
   "property": "C35",
   "status": "proved",
   "theorems": [
    "C35_never_increases",
    "C35_at_most",
    "C35_unset",
    "C35_reported",
    "C35_every_history"
   ],
   "note": "C35_reported says which minimum probability is reported at every time: that of the statistics right after the latest reduction (mhist)."
  },
  {
   "property": "C36",
   "status": "proved",
   "theorems": [
    "C36_result",
    "C36_every_history"
   ],
   "note": ""
  },
  {
   "property": "C37",
   "status": "proved",
   "theorems": [
    "C37_lossless",
    "C37_double",
    "C37_loaded"
   ],
   "note": "Adequate size means at least the number of distinct symbols; see C34 for smaller ones. C37_loaded is the same for loaded streams."
  },
  {
   "property": "C38",
   "status": "proved",
   "theorems": [
    "C38_parse_pure",
    "C38_loaded",
    "C38_refuted_known"
   ],
   "note": "Proved under the stated condition (calm histories, symbols of the sequence in the alphabet); C38_refuted_known shows that it fails without."
  },
  {
   "property": "C39",
   "status": "proved",
   "theorems": [
    "C39_update",
    "C39_first_update",
    "C39_every_history",
    "C39_refuted_second"
   ],
   "note": "C39_update says what every update does: nothing, or append the counts for the new alphabet; C39_first_update is the aligned case; C39_refuted_second shows the misalignment after a second change of dictionary."
  },
  {
   "property": "C40",
   "status": "proved",
   "theorems": [
    "C40_save",
    "C40_before_update",
    "C40_update_total",
    "C40_accept_total"
   ],
   "note": "parse, alphabet, freqs, accept and update in PropsStream.v, save in PropsPersist.v."
  },
  {
   "property": "C41",
   "status": "proved",
   "theorems": [
    "C41_alphabet_total",
    "C41_distinct",
    "C41_loaded",
    "C41_refuted_distinct"
   ],
   "note": "alphabet() succeeds at every size after an update; words are distinct in calm, roomy histories; C41_refuted_distinct shows a duplicate otherwise."
  },
  {
   "property": "C42",
   "status": "proved",
   "theorems": [
    "C42_exact",
    "C42_first_update",
    "C42_refuted"
   ],
   "note": "C42_exact says when save after an update succeeds and when it reads past the end of the frequency table; C42_first_update: it succeeds right after the first update; C42_refuted: a new symbol between update and save is enough to fail."
  },
  {
   "property": "C43",
   "status": "proved",
   "theorems": [
    "C43_fit_once",
    "C43_after_transform"
   ],
   "note": "fit tests only the flag, so this holds for every object and every data set; C43_after_transform: also with transform() in between."
  },
  {
   "property": "C44",
   "status": "proved",
   "theorems": [
    "C44_fit_counts",
    "C44_double",
    "C44_sampling_runs",
    "C44_loaded",
    "C44_refuted_not_drawn",
    "C44_refuted_late",
    "C44_refuted_no_rounds"
   ],
   "note": "Proved under good_fit (every symbol of the data is in the alphabet after the sampling); C44_refuted_not_drawn, C44_refuted_late and C44_refuted_no_rounds show the undefined behaviour otherwise, the second one although every sequence was drawn."
  },
  {
   "property": "C45",
   "status": "proved",
   "theorems": [
    "C45_batch",
    "C45_fitted",
    "C45_loaded",
    "C45_complete"
   ],
   "note": "For fitted objects, for loaded objects, and for any object whose parses are pure (C38)."
  },
  {
   "property": "C46",
   "status": "proved",
   "theorems": [
    "C46_written",
    "C46_unambiguous",
    "C46_injective",
    "C46_strings"
   ],
   "note": ""
  },
  {
   "property": "C47",
   "status": "proved",
   "theorems": [
    "C47_interrupted",
    "C47_later_fit",
    "C47_every_point"
   ],
   "note": "The signal is a parameter of the model: an arbitrary decision at every check of the flag."
  },
  {
   "property": "C48",
   "status": "proved",
   "theorems": [
    "C48_chars",
    "C48_words",
    "C48_double"
   ],
   "note": ""
  },
  {
   "property": "C49",
   "status": "proved",
   "theorems": [
    "C49_chars",
    "C49_texts"
   ],
   "note": "Under good_fit on the token numbers of the texts, see C44 for what happens otherwise."
  },
  {
   "property": "C50",
   "status": "proved",
   "theorems": [
    "C50_options",
    "C50_given"
   ],
   "note": "C50_given covers the constructor that takes an integer stream and a tokenizer."
  },
  {
   "property": "C51",
   "status": "proved",
   "theorems": [
    "C51_roundtrip",
    "C51_double"
   ],
   "note": "For streams whose frequency table is complete, with the values of the C++ type int, and a number printer that is exact on the minimum probability (io_ok; what a correct dtoa and strtod do)."
  },
  {
   "property": "C52",
   "status": "proved",
   "theorems": [
    "C52_roundtrip"
   ],
   "note": "For models fitted under good_fit (see C44), also after any number of transforms before or after saving, on all ASCII texts."
  },
  {
   "property": "C53",
   "status": "proved",
   "theorems": [
    "C53_refuted",
    "C53_fitted"
   ],
   "note": "The property fails for every file that IntVGram.save writes: C53_refuted; C53_fitted shows that the same file loads as an IntStreamVGram."
  },
  {
   "property": "C54",
   "status": "proved",
   "theorems": [
    "C54_truncated",
    "C54_newline"
   ],
   "note": "For every file a save function writes; only the final newline may be missing."
  },
  {
   "property": "C55",
   "status": "proved",
   "theorems": [
    "C55_printed",
    "C55_unambiguous",
    "C55_refuted_empty"
   ],
   "note": "Proved for non-empty sequences; C55_refuted_empty: printing the empty sequence reads past its end."
  },
  {
   "property": "C56",
   "status": "proved",
   "theorems": [
    "C56_recurrence",
    "C56_range",
    "C56_last"
   ],
   "note": "The recurrence is written out with mod 2^64."
  },
  {
   "property": "C57",
   "status": "proved",
   "theorems": [
    "C57_refuted_any"
   ],
   "note": "The property fails for the code: C57_refuted_any shows undefined behaviour for every reachable encoder and every non-empty input."
  },
  {
   "property": "C58",
   "status": "proved",
   "theorems": [
    "C58_dirichlet",
    "C58_code",
    "C58_repeated"
   ],
   "note": "In exact arithmetic for the sum (C58_dirichlet); C58_code and C58_repeated are about the code itself."
  },
  {
   "property": "C59",
   "status": "proved",
   "theorems": [
    "C59_always_chars",
    "C59_refuted"
   ],
   "note": "The property fails for the code: C59_always_chars for every file, C59_refuted is a stream that parses differently after loading."
  },
  {
   "property": "C60",
   "status": "proved",
   "theorems": [
    "C60_score_by_counts"
   ],
   "note": "All ten rounds use the same freshly seeded generator, see C58."
  },
  {
   "property": "C61",
   "status": "proved",
   "theorems": [
    "C61_unreported",
    "C61_before_fit"
   ],
   "note": "The completion of C47 for VGram, whose fit ignores the result of the inner fit. The world's w_term stands for isTerminated of the inner object; with the constructors that make the inner object themselves it is constantly false (C75), so the first theorem applies to a VGram over a derived IntVGram, whose fields are those of new_tvgram."
  },
  {
   "property": "C62",
   "status": "proved",
   "theorems": [
    "C62_refuted"
   ],
   "note": "The property fails for the code: a concrete life of a text stream; C52 is the positive counterpart for fitted models."
  },
  {
   "property": "C63",
   "status": "proved",
   "theorems": [
    "C63_decode_issued"
   ],
   "note": ""
  },
  {
   "property": "C64",
   "status": "proved",
   "theorems": [
    "C64_forgets",
    "C64_double",
    "C64_refuted_keeps"
   ],
   "note": "C64_forgets says what happens to every loaded stream after a reduction: only one-symbol words remain; C64_refuted_keeps is a run in which the only composite word is lost although the text consists of it."
  },
  {
   "property": "C65",
   "status": "proved",
   "theorems": [
    "C65_total",
    "C65_double",
    "C65_loaded"
   ],
   "note": ""
  },
  {
   "property": "C66",
   "status": "proved",
   "theorems": [
    "C66_renamed",
    "C66_vgram"
   ],
   "note": ""
  },
  {
   "property": "C67",
   "status": "proved",
   "theorems": [
    "C67_not_json",
    "C67_ends",
    "C67_accepts",
    "C67_flags",
    "C67_texts",
    "C67_refuted_missing",
    "C67_refuted_huge"
   ],
   "note": "The exact set of outcomes is proved (C67_not_json, C67_ends, C67_accepts); C67_refuted_missing and C67_refuted_huge are the two cases of undefined behaviour."
  },
  {
   "property": "C68",
   "status": "proved",
   "theorems": [
    "C68_pairs",
    "C68_refuted_order"
   ],
   "note": "Proved for files in order (as save writes them); C68_refuted_order shows the mix-up otherwise."
  },
  {
   "property": "C69",
   "status": "proved",
   "theorems": [
    "C69_idempotent",
    "C69_all_or_nothing",
    "C69_stale",
    "C69_refuted"
   ],
   "note": "C69_idempotent and C69_all_or_nothing hold in every state; C69_stale says that update() does nothing until the builder makes a new dictionary, C69_refuted is a run with stale frequencies."
  },
  {
   "property": "C70",
   "status": "proved",
   "theorems": [
    "C70_files",
    "C70_double",
    "C70_texts"
   ],
   "note": "Same hypotheses as C51 and C52."
  },
  {
   "property": "C71",
   "status": "proved",
   "theorems": [
    "C71_no_draws",
    "C71_no_draws_text",
    "C71_alphabet_kept",
    "C71_refuted"
   ],
   "note": "The property fails: C71_no_draws for every file, C71_alphabet_kept for well-formed ones, C71_refuted is a concrete model."
  },
  {
   "property": "C72",
   "status": "proved",
   "theorems": [
    "C72_refuted",
    "C72_lost",
    "C72_lost_vgram",
    "C72_exact",
    "C72_exact_vgram",
    "C72_saved",
    "C72_saved_double",
    "C72_int",
    "C72_int_vgram",
    "C72_agrees",
    "C72_agrees_int",
    "C72_agrees_vgram"
   ],
   "note": "The property fails: C72_refuted is a word stream with a Latin-1 text, C72_lost says that no load function reads what is left. C72_exact says when it happens (a text of the alphabet is not UTF-8, defined after RFC 3629), C72_saved that it does not for character streams and for UTF-8 texts, C72_int that integer models are never affected."
  },
  {
   "property": "C73",
   "status": "proved",
   "theorems": [
    "C73_alone",
    "C73_company"
   ],
   "note": "ModelShared.v runs any number of text streams and text models over one tokenizer; m_call is the same function for an object alone and in a group. C73_alone also covers a next call that fails. Objects start fresh and the tokenizer new (earlier use of the tokenizer is a Direct call); objects loaded from files are not in the groups."
  },
  {
   "property": "C74",
   "status": "proved",
   "theorems": [
    "C74_counted",
    "C74_double",
    "C74_refuted"
   ],
   "note": "The claim is false; C74_refuted is a run where half of the data is counted, C74_counted says exactly what is counted, for every point of the first signal. good_fit is asked of the undisturbed world. In Python the KeyboardInterrupt is raised as well (CPython, not modelled), but the object stays as described."
  },
  {
   "property": "C75",
   "status": "proved",
   "theorems": [
    "C75_stops",
    "C75_deaf",
    "C75_refuted"
   ],
   "note": "C75_stops for constructed IntVGram objects; C75_deaf: whole lives of VGram and loaded objects go the same way without signals; C75_refuted: a VGram.fit with a signal at every point completes. The downcast in load is undefined behaviour by the letter of the standard; ModelPy.v takes it to give the object as it is. What pybind11 and CPython do with a nullptr and a pending exception is not modelled."
  },
  {
   "property": "C76",
   "status": "proved",
   "theorems": [
    "C76_rebuilds",
    "C76_long_words",
    "C76_fit",
    "C76_loaded",
    "C76_double",
    "C76_double_words"
   ],
   "note": "Generic in the floats, with the threshold as a parameter of rlaws (FloatRebuild.v), proved to be 1152 for doubles if std::log is between -1000 and -2.3025 (or -infinity) at every double from 0 to 0.1 + 2^-50 (log_tenth). C76_fit asks for good_fit, as C44 does."
  },
  {
   "property": "C77",
   "status": "proved",
   "theorems": [
    "C77_saved",
    "C77_early",
    "C77_every_accept",
    "C77_broken",
    "C77_stays",
    "C77_kept",
    "C77_double",
    "C77_double_broken",
    "C77_refuted"
   ],
   "note": "The claim as a whole is false: C77_refuted saves, loads, accepts two empty sequences and updates. C77_saved and C77_early say which files are affected, C77_every_accept and C77_broken what happens to every loaded stream with -1, C77_stays and C77_kept that the others keep their words up to 2 * thr symbols (C64 says what happens later). rm is [2^-300, 0.002000001] for doubles."
  },
  {
   "property": "C78",
   "status": "proved",
   "theorems": [
    "C78_nothing",
    "C78_loaded",
    "C78_double",
    "C78_refuted_loaded"
   ],
   "note": "Equality of the whole state. C78_refuted_loaded: false for every file with minimum probability -1 (see C77)."
  },
  {
   "property": "C79",
   "status": "proved",
   "theorems": [
    "C79_reads",
    "C79_only",
    "C79_rejects",
    "C79_same",
    "C79_order",
    "C79_saved"
   ],
   "note": "The grammar is a relation between texts and values (SpecGrammar.v), independent of the lexer and parser of ModelJson.v. C79_reads: every such text is read as that value; C79_only: nothing else is read. Numbers with a fraction or exponent, or outside 64 bits, are read by the oracle float_io as before (strtod); the grammar says which texts are numbers. apart_from: a number may not be followed by a character that would continue it (a file holding just a number, which no load function accepts)."
  },
  {
   "property": "C80",
   "status": "proved",
   "theorems": [
    "C80_stream",
    "C80_fit",
    "C80_text_update",
    "C80_text_windows",
    "C80_text_fit",
    "C80_text_stream_short",
    "C80_text_fit_short",
    "C80_double"
   ],
   "note": "Text versions of C39 and C44, through the coding of texts as integer histories (StringProofs.v), and exact counts below the rebuild threshold of C76 (generic in rlaws; C80_double instantiates 1152). plain is the text made up by the tokens: the normal form, or the words without blanks."
  },
  {
   "property": "C81",
   "status": "proved",
   "theorems": [
    "C81_selection",
    "C81_double",
    "C81_exact",
    "C81_refuted_repeats",
    "C81_refuted_dropped_part"
   ],
   "note": "C81_selection holds for every float interface with flaws (C81_double: IEEE). C81_exact compares the cost with the true growth of the code length on reals. The unconditional reading (cost = true growth; parts survive) is false of the code: C81_refuted_repeats and C81_refuted_dropped_part are runs of the model."
  },
  {
   "property": "C82",
   "status": "proved",
   "theorems": [
    "C82_selection",
    "C82_double",
    "C82_exact"
   ],
   "note": "C82_selection for every float interface with flaws; C82_double for IEEE doubles with gamma draws in [2^-160, 2^100]; C82_exact on reals. Pairs of different words can have the same text; the code considers the first in the iteration order of an unordered_map, so the theorem speaks of some pair with the text."
  },
  {
   "property": "C83",
   "status": "proved",
   "theorems": [
    "C83_due",
    "C83_due_loaded",
    "C83_periods",
    "C83_periods_loaded",
    "C83_periods_double",
    "C83_rate_exact"
   ],
   "note": "C83_due(_loaded) for every float interface with flaws; C83_periods(_loaded) needs rlaws and wlaws: the waiting time grows when p or m becomes smaller. C83_periods_double proves these for IEEE doubles from assumptions on std::log between 0 and 0.1: right to four digits at 0.1 and not decreasing. Not stated for streams loaded with the minimum probability -1 (see C77). C83_rate_exact is about real arithmetic."
  },
  {
   "property": "C84",
   "status": "proved",
   "theorems": [
    "C84_measured",
    "C84_from_alphabet",
    "C84_loaded",
    "C84_double",
    "C84_nan",
    "C84_exact"
   ],
   "note": "C84_measured, C84_from_alphabet, C84_loaded for every float interface with flaws, C84_double for IEEE doubles. The null pointer case is part of the statement (phase First of the window). C84_nan is for IEEE doubles whatever std::log(0) is. C84_exact is about the formula in real arithmetic. The readings spell the sequences; that each is the most likely one at its time is C13."
  },
  {
   "property": "C85",
   "status": "proved",
   "theorems": [
    "C85_parse",
    "C85_double",
    "C85_words",
    "C85_accept",
    "C85_update",
    "C85_freqs",
    "C85_fitted",
    "C85_refuted_aligned"
   ],
   "note": "C85_parse, C85_words, C85_accept, C85_update for every float interface with flaws, C85_double for IEEE doubles; C85_freqs and C85_fitted need nothing. C85_refuted_aligned: fit, one long accept and an update leave three frequencies for two words. Data with a symbol that was never drawn is excluded (C44_refuted_not_drawn)."
  },
  {
   "property": "C86",
   "status": "proved",
   "theorems": [
    "C86_vgram",
    "C86_stream",
    "C86_same_tokens",
    "C86_refuted_decode"
   ],
   "note": "C86_vgram, C86_stream and C86_same_tokens need no float laws. The division of transform is stated for alphabets without the empty word (C30, C85_words exclude it). C86_refuted_decode: with the second text drawn first, decode(transform(...)) turns 'aba' into 'bab'."
  },
  {
   "property": "C87",
   "status": "proved",
   "theorems": [
    "C87_same_parts",
    "C87_stream_file",
    "C87_refuted_example",
    "C87_text_stream_file",
    "C87_model_file"
   ],
   "note": "C87_same_parts is for every text as a file. C87_refuted_example: the file of every fitted IntVGram is rejected as VGram, because IntVGram is saved by the function of IntStreamVGram, which ignores the tokenizer and writes no flags."
  },
  {
   "property": "C88",
   "status": "proved",
   "theorems": [
    "C88_stream",
    "C88_loaded",
    "C88_fitted",
    "C88_near",
    "C88_fitted_near"
   ],
   "note": "C13 for the objects that users hold, in terms of what alphabet() and freqs() report; after a second update freqs() is not aligned with alphabet() (C39), and the weights are then those of the frequencies as reported. C88_near bounds the effect of rounding against exact probabilities; lg_true (FloatTrueLog.v), the correctly rounded logarithm, meets its assumption. For text objects the division is that of the token numbers (C86)."
  },
  {
   "property": "C89",
   "status": "proved",
   "theorems": [
    "C89_stream",
    "C89_double",
    "C89_text",
    "C89_fitted",
    "C89_fitted_int",
    "C89_refuted_order"
   ],
   "note": "docs/source/save.rst says that vec is a vector of symbols (it holds positions in coder), that coder follows the data (C89_refuted_order: not after fit), and that fitted is provided for IntVGram (it is not, which is why C53 fails to load). Lists that are empty are written as null. C72 says when save() succeeds."
  },
  {
   "property": "C90",
   "status": "proved",
   "theorems": [
    "C90_roundtrip",
    "C90_double"
   ],
   "note": "What the conditions exclude really fails: division into words is lost by loading (C59), a character that was met but is not a word can collide with the number of another one after loading (C62), and a frequency table shorter than the alphabet is read out of bounds by save() (C39, C42)."
  },
  {
   "property": "C91",
   "status": "proved",
   "theorems": [
    "C91_stream",
    "C91_loaded",
    "C91_fitted",
    "C91_text_stream",
    "C91_text_stream_double",
    "C91_text_fitted",
    "C91_text_fitted_double"
   ],
   "note": "Nothing is claimed for the last words of a division: their sums of logarithms start from zero when they are parsed alone and may be rounded differently."
  },
  {
   "property": "C92",
   "status": "proved",
   "theorems": [
    "C92_stream",
    "C92_stream_double",
    "C92_fitted",
    "C92_near"
   ],
   "note": "For words as tokens the pieces do not determine the tokens (decoding puts no mark between them), so the statement is about characters; for the numbers below it is C88."
  },
  {
   "property": "C93",
   "status": "proved",
   "theorems": [
    "C93_same",
    "C93_history",
    "C93_quiet",
    "C93_refuted_loaded",
    "C93_stream",
    "C93_loaded",
    "C93_minp",
    "C93_minp_loaded",
    "C93_minp_double",
    "C93_fit"
   ],
   "note": "That loaded objects are quiet is refuted (C93_refuted_loaded): the loading constructors pass 1. How a double is written by operator<< is not modelled; the line \"log_prob > 0\" of int_dict_p.cc is left out."
  },
  {
   "property": "C94",
   "status": "proved",
   "theorems": [
    "C94_safe",
    "C94_when",
    "C94_once",
    "C94_refuted_twice",
    "C94_refuted_use",
    "C94_refuted_python",
    "C94_python"
   ],
   "note": "Proved under the proviso that each pointer has one responsible (C94_safe, C94_when); refuted without it (C94_refuted_twice, C94_refuted_use, for every such program) and for load of the two stream classes in Python (C94_refuted_python). What std::shared_ptr does is taken from the C++ standard; what pybind11 2.2.4, which is not in the repository, does with a shared_ptr for a class with the default holder is our understanding of it. Null pointers and threads are left out."
  },
  {
   "property": "C95",
   "status": "proved",
   "theorems": [
    "C95_call",
    "C95_history",
    "C95_chars_only",
    "C95_words_only",
    "C95_refuted_words"
   ],
   "note": "Proved for characters and, in the stated form, for words; for words the title is refuted (C95_refuted_words). Non-ASCII text is undefined behaviour (C21)."
  },
  {
   "property": "C96",
   "status": "proved",
   "theorems": [
    "C96_stream",
    "C96_texts",
    "C96_tokens",
    "C96_own",
    "C96_refuted_empty"
   ],
   "note": "The two functions are taken to depend on their argument only. With empty tokens in the training texts the statement on transform() is refuted (C96_refuted_empty). BaseTokenizer is not bound in Python at this commit, so that such classes can be written in C++ only; the tokenizer of the README stands for the C++ class with the same two functions."
  },
  {
   "property": "C97",
   "status": "proved",
   "theorems": [
    "C97_last",
    "C97_kept",
    "C97_missing",
    "C97_silent",
    "C97_refuted_noticed"
   ],
   "note": "The title is refuted (C97_refuted_noticed, C97_silent); the rest is proved. C97 lifts the simplification of C40-C72 that writing a file succeeds. Concurrent saves to one file are not modelled."
  },
  {
   "property": "C98",
   "status": "proved",
   "theorems": [
    "C98_parse",
    "C98_double",
    "C98_words",
    "C98_train",
    "C98_others",
    "C98_same",
    "C98_refuted_independent",
    "C98_refuted_unchanged"
   ],
   "note": "The title is refuted (C98_refuted_independent, C98_refuted_unchanged); the rest is proved. Objects of text models, and assigning objects of different families, are not modelled; loaded objects neither."
  },
  {
   "property": "C99",
   "status": "proved",
   "theorems": [
    "C99_parse",
    "C99_double",
    "C99_words",
    "C99_accept",
    "C99_update",
    "C99_freqs",
    "C99_done",
    "C99_refuted_aligned"
   ],
   "note": "One frequency per word is refuted (C99_refuted_aligned); the rest is proved. The file is given by what load hands to the constructor (loadable); C68 says which files these come from."
  }
 ]
}