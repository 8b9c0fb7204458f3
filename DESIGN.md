# Design: a Rocq (Coq 8.16.1) model of akhvorov/vgram

The model is an executable, function-by-function transcription of the C++ in `/repo/core/src/main/cpp`, together with
the overridden `isTerminated` of the thin classes in `/repo/binding/src/main/cpp`. Every definition in a `Model*.v` file
cites file and lines. The properties are in `properties.jsonl`, the theorems for each in `MANIFEST.json`, attempts to
break the theorems with wrong programs in `seeded/LOG.jsonl`.

Build: `cd rocq && coq_makefile -f _CoqProject -o Makefile && make -j4` (about 12 minutes).

## Conventions of the model

* **Outcomes.** `outcome A = Ok a | UB reason | Throw reason | NoTerm`. Every vector index, `.at`, null dereference,
  iterator use, read past the end and call of a character class function is checked. Undefined behaviour of C++ is the
  distinct result `UB`, an exception is `Throw`, a loop that does not stop is `NoTerm` (loops take fuel that is shown to
  suffice). Theorems say `= Ok ...`, so they include the absence of all three.
* **Integers.** Symbols and counts are `Z`; indices and lengths are `nat`; the C++ result `-1` ("none") is `None`.
  The range of `int` is written out where a property is about it: pair packing and hashing (`ModelStat`, `ModelMisc`),
  the `size() - 1` of the printer, the comparison of signed and unsigned in `filter_stat_items`, the conversion of
  numbers read from a file (`wrap32`). C33 bounds the counters of the builder, C65 those of the streams.
* **Floating point.** All arithmetic on `double` goes through a record `fops` (`FloatOps.v`). Model and proofs are
  generic in it; the laws used are the record `flaws` (`FloatLaws.v`). They are proved for IEEE-754 binary64 with
  rounding to nearest (Flocq's `BinarySingleNaN`), for every logarithm that is finite and at most 1000 in absolute
  value on `[2^-900, 2^900]` (`FloatIEEE.ieee_laws`, `log_ok`). Theorems named `..._double` are the instances. `FloatIdeal.v` is exact
  real arithmetic, used for C26, C58 and the `_exact` theorems of C81-C84 only. `C88_near` asks of the logarithm that it is
  within 2^-46 of the real one on integers up to 2^53 (`log_close`); `FloatTrueLog.lg_true`, the correctly rounded logarithm, is one. Examples and refutations run on binary64 with a concrete logarithm
  (`FloatExample.v`).
* **Nondeterminism.** `std::sort` with ties, iteration order of `unordered_map`, gamma draws, indices drawn by
  `std::rand`, interruption by a signal, and the unspecified evaluation order of C++14 are parameters
  (`env`, `world`, boolean arguments). Theorems hold for every value of them that the standard permits (`env_ok`), and for
  gamma draws that do not make a score overflow (`draws_ok`; for doubles implied by draws in `[2^-160, 2^100]`, `FloatScore.v`).
* **Sharing.** Dictionaries are shared through `shared_ptr` between the stream object and the builder, so they live in
  a heap inside the builder state; parsing with a shared dictionary changes what the builder sees.
* **Files.** A file is the list of its chars. Printing and reading a double is a parameter (`float_io`); the theorems
  on round trips ask that it is exact on the one double of the file (`io_ok`, `minp_exact`).
* **Histories.** Properties quantify over all histories (`shist`, `bhist`, `thist`, `tok_history`, `saved_file`,
  `text_life`, ...): inductive relations that allow every public operation in every order.

## What is modelled

| Model | Code |
|---|---|
| `ModelDict.v` | `algorithm/int_dict_p.cc` (all of IntDictImpl; the `std::lower_bound` loop of libstdc++) |
| `ModelStat.v`, `ModelRandom.v` | `algorithm/stat_dict_p.cc`, `algorithm/fast_random.cc` |
| `ModelBuilder.v` | `algorithm/int_vgram_builder_p.cc` |
| `ModelMisc.v` | `algorithm/int_dict.cc` (operator<<), `algorithm/vector_hash.h`, class Encoder of `algorithm/list_dict.h` |
| `ModelCoder.v` | `interfaces/seq_coder.cc` |
| `ModelTok.v` | `interfaces/tokenizers/*.cc` |
| `ModelStream.v`, `ModelVGram.v` | `interfaces/vgram_builders/int_stream_vgram.cc`, `int_vgram.cc` |
| `ModelString.v` | `interfaces/vgram_builders/string_stream_vgram.cc`, `string_vgram.cc` |
| `ModelPersist.v` | `interfaces/saver.h`, `interfaces/loader.h`, the `save` functions |
| `ModelShared.v` | text streams and text models that share one tokenizer (string_stream_vgram.cc:30-36, string_vgram.cc:59-60) |
| `ModelPy.v` | `binding/src/main/cpp/py_int_vgram_builder.h`, `py_vgram_builder.h`: which class, hence which `isTerminated`, the Python objects have |
| `ModelLog.v` | the lines that `verbose` above 0 prints (int_vgram_builder_p.cc:91-94, int_vgram.cc:38-40, 60-62), without the formatting of doubles |
| `ModelSave.v` | the same save functions, with the content of the file followed up to an exception (`dump` and `dump_escaped` with its buffer) |
| `ModelJson.v` | the part of `interfaces/json.h` used by saver and loader: dump with indentation 2, the parser with lexer, UTF-8 checks, number syntax |

`Spec*.v`: the vocabulary of the properties, independent of the algorithms. `*Proofs.v`, `*Lemmas.v`: proofs.
`*Runs.v`: executions used as witnesses. `Props*.v`: the theorems, each with `Print Assumptions` and a concrete case.

Not modelled: pybind11 glue (conversions, exceptions, `nullptr` as a result; who owns what `load` returns is in `ModelOwner.v`, as we understand pybind11), the formatting of printed doubles, allocation failure, the Python scripts, the parts of `json.h`
that saver and loader do not reach; the class templates ListDict and VGramBuilder (`list_dict.h`, `vgram_builder.h`), which are never instantiated
and cannot be (list_dict.cc passes arguments no constructor takes).

Simplifications, each stated at the definition: the lexer's numbers outside 64 bits become doubles through `io_read`; a file
that cannot be opened reads as empty; writing a file succeeds (except in `ModelDisk.v`, C97); a tokenizer shared by several objects
through `shared_ptr` is modelled in `ModelShared.v` only (C73 justifies taking it as owned elsewhere); lifetimes (shared and raw
pointers) are modelled in `ModelOwner.v` only (C94); integer overflow of counters is excluded by bounds instead of modelled (see Integers).

## Method

| Ids | Proof |
|---|---|
| C01-C07 | sort lemmas; invariant of the parent stack: it is the chain of prefixes of the last word; specification of `lower_bound` on sorted and unsorted lists |
| C08-C11 | reachable dictionaries (`SpecHistory.v`); greedy parse by induction on the input |
| C12-C15 | invariant of the dynamic program: scores are maxima over paths, under the float laws |
| C16-C23, C63 | the two maps are inverse and dense |
| C24-C28, C32, C58, C60 | induction on the parses since the last reset; exact arithmetic for entropy and Dirichlet |
| C29-C36 | invariant over all builder histories, any environment |
| C37-C42, C64, C65 | simulation of the stream by a builder history (`StreamProofs.v`), so that the builder results carry over |
| C43-C47, C61 | induction over the sampling rounds |
| C48-C50 | text histories are integer histories of the token numbers |
| C51-C54, C59, C62 | round trip of the JSON printer and reader for all values and texts; a stream and its loaded copy are bisimilar for parsing |
| C66 | two runs related by the renaming of the coder tables, call by call |
| C69-C71 | `update` is a test of pointer equality; the written file depends only on what a loaded copy shares with the original (`alike_save`); loading sets the number of rounds to 0 |
| C72 | what is written before an exception is a proper prefix of the text of some other value, and a prefix is not read (C54); the decoder accepts exactly the table of RFC 3629 |
| C73 | the ids of the shared and of the own tokenizer at the end of the history define a one-to-one renaming; C66's simulation along the history, with tokens known alone known in company |
| C74, C75 | the counting loop up to the signal is the loop on a prefix of the data; the class of an object never changes, and a plain IntVGram does not ask for signals |
| C76-C78 | invariant of the builder: power counts the words parsed since the last rebuild, the minimum probability stays at most 0.002, the accepted probability never grows; a rebuild doubles word lengths at most and every second one is a reduction |
| C99 | the simulation of C85, started from the state of a loaded stream (C37) |
| C98 | one history of the builder for all objects; the simulation of C85 for each part; dictionaries only gain symbols |
| C97 | the last save that opened the file leaves a prefix of a printed object, complete or unreadable (C54, C72); other saves leave the file alone |
| C96 | as C48, C49, with the tokens in place of characters or words; the two tokenizers of the package are instances (C96_own) |
| C95 | the tokenizer's view of a text is its normal form; the converse from the joined words (C22) |
| C94 | control blocks with counters against the living objects read off the calls: counter = number of living objects of the block; deletions = blocks at 0 + deletions by the caller |
| C93 | the functions with output (ModelLog.v) erase to those without, call by call; the flag populate_ is the parity of the number of rebuilds |
| C92 | C88 carried through the numbering of the characters, which decodes different lists of numbers to different texts |
| C91 | the score table of the shorter sequence is the beginning of the table of the longer one, and reading the words back from the end passes through every boundary of the division |
| C90 | the number stream below (C51) related to its loaded twin through the codes of the characters; unknown characters are numbered by both above everything known |
| C89 | the entries of the file (PersistProofs) related to the order in which codes are handed out |
| C88 | optimality of the table (DpProofs) carried through coding; forward error analysis of the sums with Flocq |
| C87 | the four loaders share read_dict; the fields of each kind of file, and the round trip of C51 for files with texts and flags |
| C86 | the ids of the tokenizer and the user's numbers define a one-to-one renaming, extended to all integers; C66's simulation for every later state of the tokenizer |
| C85 | an own simulation by a history of builder calls: the counting of fit is a series of shared parses, the reading of the frequencies a call of its own |
| C84 | along a history with its window the counters of the current and of the result statistics are those of a log of readings; Gibbs' inequality for the bound |
| C83 | the rate fields follow the list of past rates (induction over timed histories); minima keep the set of values not above the old one; the waiting time never decreases |
| C82 | the output loop writes a prefix of the sorted items; words have the largest score and come first; every pair's text is known after the pair loop |
| C81 | items carry the cost of a separate definition (removal_cost); the output loop of reduce writes a prefix of the sorted items; convexity of x ln x for the exact part |
| C80 | the text history is an integer history (C48); below the threshold of C76 all words are symbols, and readings in symbols are unique |
| C79 | the grammar as a mutually inductive relation; the lexer and parser of the model are sound and complete for it, and the result is unique |
| C67, C68 | case analysis of the reader; json values are described relationally in `SpecLoad.v` |
| C55-C57 | direct |

A property that is false of the code has a theorem `..._refuted...` with a witness (computed by the kernel with `vm_compute`), and, beside it,
the theorem that holds under the missing condition.

## Findings

* C06/C08: looking up an unknown sequence in a mutable dictionary appends to a sorted list, later lookups can miss words.
* C11: the empty word in a dictionary makes the greedy parse loop forever.
* C20: the token numbering relies on an evaluation order that C++14 leaves unspecified.
* C21: a non-ASCII char reaches `isalnum` as a negative int, which is undefined behaviour.
* C23, C62: a tokenizer built from a map with gaps hands out a number twice; loading a text stream can produce such a map.
* C27: the constructor from words and frequencies pairs frequencies with the sorted words.
* C31, C34: a requested size below the number of symbols is exceeded, or reduces below zero slots.
* C38, C41: parsing a new symbol with a stream changes the alphabet, which can then contain a word twice.
* C39, C42: frequencies and alphabet fall out of step; saving then reads past the end of the frequency table.
* C40: before the first `update` every parse, alphabet and save dereferences null.
* C44: `IntVGram::fit` reads past the end when a symbol of the data was not drawn by the sampling, or too late.
* C53: a file written by `IntVGram::save` never loads as an IntVGram.
* C57: `Encoder` dereferences the end iterator on every non-empty input.
* C59: a loaded text stream always uses the character tokenizer.
* C61: `VGram::fit` does not report an interrupted fit (which needs a derived inner object).
* C74: `IntVGram::fit` interrupted while it counts passes for a completed one, with the frequencies of a part of the data.
* C75: Ctrl-C has no effect on `VGram` and on loaded objects.
* C76: the second README example (`iter_num=10`, two short texts) cannot learn any word of two symbols.
* C77: a stream saved before its second rebuild loses its words when it is trained on after loading, even by empty sequences.
* C64: a loaded stream counts every word of the file as a symbol, so the first reduction after loading leaves no words of
  two or more symbols, and the requested size has no effect.
* C67: a model file with an entry that lacks a key, or with a number outside int written as a double, is undefined behaviour
  on loading; every other text is loaded or rejected with an exception.
* C68: loading sorts the words but not their frequencies, so a file with entries in another order is misread.
* C69: `update` does not refresh the frequencies until the builder has made a new dictionary.
* C71: `fit` on a loaded model does not train.
* C72: saving a text model with a token that is not UTF-8 throws after the file has been emptied; the previous model is lost.
* C93: loaded objects print their progress, whatever `verbose` the saved one had.
* C99: a loaded object that is trained and updated keeps the loaded frequencies in front of the new ones.
* C98: copies of an object share the builder, the coder and the dictionary; training one trains all of them.
* C97: save() does not notice that the file cannot be opened or written; an older model stays in place and is loaded instead.
* C96: BaseTokenizer is not bound in Python although the README imports it; its example tokenizer makes empty tokens of doubled spaces, and then transform() does not separate words by single spaces.
* C95: with words as tokens, a second space between two words becomes part of the next word, which is then not recognized.
* C94: a tokenizer given to two `StringVGram` objects is deleted twice. `IntStreamVGram.load` and `StreamVGram.load` in
  Python return a `shared_ptr` for classes that are declared with the default holder (bind_vgram.cc:18, 31): the object is
  deleted when `load` returns. (This rests on our understanding of pybind11 2.2.4, which
  `binding/src/main/pybind11-download.cmake` fetches and which is not in the repository.)

## Trusted base

* Coq's kernel, including its virtual machine for `vm_compute` (the witnesses). `coqchk` re-checks the files.
* The correspondence of model and C++ text, by reading; the code was never run.
* The assumptions on the environment named above: `env_ok`, `draws_ok`, `log_ok`, `log_tenth` (C76-C78: `std::log` is at most -2.3025 and at least -1000 or -infinity on [0, 0.1 + 2^-50]), `log_mono` (C83 only: `std::log` does not decrease on that interval), `float_io`, `lax` (see `ModelPersist.v`: two iterators into two
  copies of a map, undefined by the standard, harmless in libstdc++).
* Axioms, as printed by `Print Assumptions`. All come from Coq's standard library (real numbers, through Flocq); there are no axioms of our own.

### Print Assumptions, by theorem

Closed under the global context:
`C01_build_exact` `C01_build_symbols` `C01_get_in_range` `C02_chain_is_all_prefixes`
`C02_parent_longest_proper_prefix` `C03_build_safe` `C04_search_excludes` `C05_indices_stable` `C05_search_total`
`C06_empty_query` `C06_search_safe_everywhere` `C07_word_finds_itself` `C08_learned_index_in_order`
`C08_learned_index_refuted` `C09_greedy_longest` `C09_greedy_lossless` `C09_longest_refuted_after_learning`
`C10_greedy_excludes` `C10_greedy_excludes_any_state` `C11_empty_word_refuted` `C11_greedy_terminates`
`C12_weighted_lossless` `C13_weighted_optimal` `C14_greedy_buffer` `C14_return_is_size` `C14_weighted_buffer`
`C15_reparse_refuted_without_symbols` `C15_reparse_without_itself` `C16_decode_encode` `C17_codes_dense`
`C17_codes_stable` `C17_first_occurrence_order` `C18_all_known` `C18_drops_unknown` `C19_decode_throws_exactly`
`C20_batch` `C20_batch_again` `C20_refuted_lhs_first` `C20_roundtrip` `C21_char_roundtrip` `C21_normal_form`
`C21_refuted_non_ascii` `C21_tokenize_chars` `C22_normalize_identity` `C22_word_tokens` `C23_fresh_ids_dense`
`C23_refuted_sparse` `C23_roundtrip_dense` `C24_mass` `C24_parses_total` `C25_no_shared_counter` `C25_packed_table`
`C25_pair_counts` `C27_sorted_words` `C27_total` `C28_update_one` `C29_alpha` `C29_from_alphabet` `C29_words_occur`
`C30_complete` `C31_size` `C32_expand_keeps` `C32_expand_only_observed` `C32_reduce_keeps_symbols`
`C32_reduce_only_removes` `C33_counters` `C33_no_overflow` `C34_accept_total` `C34_from_alphabet` `C34_run_total`
`C35_at_most` `C35_every_history` `C35_never_increases` `C35_reported` `C35_unset` `C36_every_history` `C36_result`
`C37_loaded` `C37_lossless` `C38_loaded` `C38_parse_pure` `C39_every_history` `C39_first_update` `C39_update`
`C40_accept_total` `C40_before_update` `C40_save` `C40_update_total` `C41_alphabet_total` `C41_distinct`
`C41_loaded` `C42_exact` `C42_first_update` `C43_after_transform` `C43_fit_once` `C44_fit_counts` `C44_loaded`
`C44_sampling_runs` `C45_batch` `C45_complete` `C45_fitted` `C45_loaded` `C46_injective` `C46_strings`
`C46_unambiguous` `C46_written` `C47_every_point` `C47_interrupted` `C47_later_fit` `C48_chars` `C48_words`
`C49_chars` `C49_texts` `C50_given` `C50_options` `C51_roundtrip` `C52_roundtrip` `C53_fitted` `C53_refuted`
`C54_newline` `C54_truncated` `C55_printed` `C55_refuted_empty` `C55_unambiguous` `C56_last` `C56_range`
`C56_recurrence` `C57_refuted_any` `C58_code` `C58_repeated` `C59_always_chars` `C60_score_by_counts`
`C61_before_fit` `C61_unreported` `C63_decode_issued` `C64_forgets` `C65_loaded` `C65_total` `C66_renamed`
`C66_vgram` `C67_accepts` `C67_ends` `C67_flags` `C67_not_json` `C67_refuted_huge` `C67_refuted_missing` `C67_texts`
`C68_pairs` `C68_refuted_order` `C69_all_or_nothing` `C69_idempotent` `C69_stale` `C70_files` `C70_texts`
`C71_alphabet_kept` `C71_no_draws` `C71_no_draws_text` `C72_agrees` `C72_agrees_int` `C72_agrees_vgram` `C72_exact`
`C72_exact_vgram` `C72_int` `C72_int_vgram` `C72_lost` `C72_lost_vgram` `C72_saved` `C73_alone` `C73_company`
`C74_counted` `C75_deaf` `C75_stops` `C76_fit` `C76_loaded` `C76_long_words` `C76_rebuilds` `C77_broken` `C77_early`
`C77_every_accept` `C77_kept` `C77_saved` `C77_stays` `C78_loaded` `C78_nothing` `C79_only` `C79_order` `C79_reads`
`C79_rejects` `C79_same` `C79_saved` `C80_fit` `C80_stream` `C80_text_fit` `C80_text_fit_short`
`C80_text_stream_short` `C80_text_update` `C80_text_windows` `C81_selection` `C82_selection` `C83_due`
`C83_due_loaded` `C83_periods` `C83_periods_loaded` `C84_from_alphabet` `C84_loaded` `C84_measured` `C85_accept`
`C85_fitted` `C85_freqs` `C85_parse` `C85_update` `C85_words` `C86_same_tokens` `C86_stream` `C86_vgram`
`C87_model_file` `C87_refuted_example` `C87_same_parts` `C87_stream_file` `C87_text_stream_file` `C88_fitted`
`C88_loaded` `C88_stream` `C89_fitted` `C89_fitted_int` `C89_stream` `C89_text` `C90_roundtrip` `C91_fitted`
`C91_loaded` `C91_stream` `C91_text_fitted` `C91_text_stream` `C92_fitted` `C92_stream` `C93_fit` `C93_history`
`C93_loaded` `C93_minp` `C93_minp_loaded` `C93_quiet` `C93_same` `C93_stream` `C94_once` `C94_python`
`C94_refuted_python` `C94_refuted_twice` `C94_refuted_use` `C94_safe` `C94_when` `C95_call` `C95_chars_only`
`C95_history` `C95_words_only` `C96_own` `C96_stream` `C96_texts` `C96_tokens` `C97_kept` `C97_last` `C97_missing`
`C97_silent` `C98_others` `C98_parse` `C98_same` `C98_train` `C98_words` `C99_accept` `C99_done` `C99_freqs`
`C99_parse` `C99_update` `C99_words`

`ClassicalDedekindReals.sig_forall_dec`, `ClassicalDedekindReals.sig_not_dec`, `Classical_Prop.classic`, `FunctionalExtensionality.functional_extensionality_dep`:
`C12_weighted_lossless_double` `C13_weighted_optimal_double` `C24_mass_double` `C26_entropy` `C26_refuted_empty`
`C27_refuted_unsorted` `C28_refuted_after_result_freqs` `C29_double` `C30_double` `C31_refuted_exceeds`
`C32_expand_keeps_double` `C32_refuted_unsorted` `C34_double` `C34_refuted_small` `C37_double` `C38_refuted_known`
`C39_refuted_second` `C41_refuted_distinct` `C42_refuted` `C44_double` `C44_refuted_late` `C44_refuted_no_rounds`
`C44_refuted_not_drawn` `C48_double` `C51_double` `C58_dirichlet` `C59_refuted` `C62_refuted` `C64_double`
`C64_refuted_keeps` `C65_double` `C69_refuted` `C70_double` `C71_refuted` `C72_refuted` `C72_saved_double`
`C74_double` `C74_refuted` `C75_refuted` `C76_double` `C76_double_words` `C77_double` `C77_double_broken`
`C77_refuted` `C78_double` `C78_refuted_loaded` `C80_double` `C81_double` `C81_exact` `C81_refuted_dropped_part`
`C81_refuted_repeats` `C82_double` `C82_exact` `C83_periods_double` `C83_rate_exact` `C84_double` `C84_exact`
`C84_nan` `C85_double` `C85_refuted_aligned` `C86_refuted_decode` `C88_fitted_near` `C88_near` `C89_double`
`C89_refuted_order` `C90_double` `C91_text_fitted_double` `C91_text_stream_double` `C92_near` `C92_stream_double`
`C93_minp_double` `C93_refuted_loaded` `C95_refuted_words` `C96_refuted_empty` `C97_refuted_noticed` `C98_double`
`C98_refuted_independent` `C98_refuted_unchanged` `C99_double` `C99_refuted_aligned`
