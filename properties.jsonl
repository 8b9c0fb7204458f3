{"id": "C01", "title": "Dictionary construction sorts and loses nothing", "statement": "Constructing a dictionary from a list of words gives a dictionary whose alphabet() is exactly the given words (with multiplicity) in lexicographic order, whose size() is their number, and for which get(i) is alphabet()[i]. Constructing from a flat list of symbols gives the one-symbol words of those symbols.", "quantifier": "every list of words over int, including the empty list, empty words and repeated words", "why_tests_cant": "the input space is unbounded; tests fix one four-word dictionary", "anchors": ["core/src/main/cpp/algorithm/int_dict_p.cc: IntDictImpl::IntDictImpl, IntDictImpl::init, get, size, alphabet"]}
{"id": "C02", "title": "parent(i) is the longest proper dictionary prefix", "statement": "In a dictionary built from distinct words, parent(i) is the index of the longest dictionary word that is a proper prefix of word i, and -1 exactly when no dictionary word is a proper prefix of it. Following parents from i visits exactly the dictionary words that are proper prefixes of word i.", "quantifier": "every duplicate-free list of words and every index", "why_tests_cant": "prefix structure is arbitrary; a few literal dictionaries do not exercise deep or interleaved prefix chains", "anchors": ["core/src/main/cpp/algorithm/int_dict_p.cc: IntDictImpl::init, parent"]}
{"id": "C03", "title": "Dictionary construction never reads out of bounds", "statement": "Building a dictionary never reads past the end of a word (the three-iterator std::mismatch is only applied where it is in range) and always terminates.", "quantifier": "every list of words, including duplicates, empty words and words that are prefixes of each other", "why_tests_cant": "an out-of-bounds read by one element is invisible to a functional test", "anchors": ["core/src/main/cpp/algorithm/int_dict_p.cc: IntDictImpl::init, std::mismatch call"]}
{"id": "C04", "title": "search with an exclusion set returns the longest allowed prefix", "statement": "On a dictionary of distinct words, search(q, excludes) returns the index of the longest dictionary word that is a prefix of q and is not excluded; it returns -1 exactly when there is no such word; it does not change the dictionary.", "quantifier": "every duplicate-free dictionary, every non-empty or empty query, every exclusion set", "why_tests_cant": "needs all dictionaries x queries x exclusion sets; binary search plus parent chain has many boundary cases", "anchors": ["core/src/main/cpp/algorithm/int_dict_p.cc: IntDictImpl::search"]}
{"id": "C05", "title": "search without exclusions is total and learns at most one symbol", "statement": "On a dictionary of distinct words and a non-empty query, search(q) returns the index of the longest dictionary word that is a prefix of q and leaves the dictionary unchanged if there is one; otherwise it appends the one-symbol word of the first symbol of q, with no parent, and returns its index. No existing index ever changes meaning.", "quantifier": "every duplicate-free dictionary and every non-empty query", "why_tests_cant": "unbounded input space; mutation on the failure path only", "anchors": ["core/src/main/cpp/algorithm/int_dict_p.cc: IntDictImpl::search"]}
{"id": "C06", "title": "search is memory safe and sound in every reachable dictionary state", "statement": "However a dictionary was grown by earlier lookups and parses (in any order, so that its tail need not be sorted), search on a non-empty query never reads out of bounds, terminates, and any index it returns names a word that is a prefix of the query.", "quantifier": "every dictionary reachable by construction followed by any sequence of searches", "why_tests_cant": "quantifies over all histories of mutating lookups", "anchors": ["core/src/main/cpp/algorithm/int_dict_p.cc: IntDictImpl::search, std::lower_bound, std::mismatch, parents_"]}
{"id": "C07", "title": "Every dictionary word finds itself", "statement": "In a dictionary of distinct words, search(get(i)) is i, with or without an exclusion set that does not contain i.", "quantifier": "every duplicate-free dictionary, every index", "why_tests_cant": "tests check one dictionary", "anchors": ["core/src/main/cpp/algorithm/int_dict_p.cc: IntDictImpl::search"]}
{"id": "C08", "title": "A learned symbol keeps its index", "statement": "Looking up the same unseen symbol twice returns the same index and the second lookup does not grow the dictionary. (Expected by users of a mutable dictionary; holds only when symbols are learned in increasing order.)", "quantifier": "every dictionary and every history of lookups", "why_tests_cant": "fails only for particular orders of first occurrence", "anchors": ["core/src/main/cpp/algorithm/int_dict_p.cc: IntDictImpl::search (append path)"]}
{"id": "C09", "title": "Greedy parse is lossless and greedy", "statement": "Parsing without weights and without exclusions yields indices whose words, concatenated in order, are exactly the input; at every step the chosen word is the longest dictionary word that matches.", "quantifier": "every duplicate-free dictionary without the empty word whose learned symbols arrive in order; losslessness for every reachable dictionary; every input", "why_tests_cant": "inductive over the input length", "anchors": ["core/src/main/cpp/algorithm/int_dict_p.cc: linearParse, parse(seq, output, excludes)"]}
{"id": "C10", "title": "Greedy parse with exclusions drops exactly the uncovered symbols", "statement": "With an exclusion set the output words are never excluded, they occur in the input in order and without overlap, the symbols between them are exactly those at positions where no allowed word matches, and the dictionary is unchanged.", "quantifier": "every duplicate-free dictionary without the empty word, every exclusion set, every input", "why_tests_cant": "inductive over the input", "anchors": ["core/src/main/cpp/algorithm/int_dict_p.cc: linearParse"]}
{"id": "C11", "title": "Greedy parse terminates", "statement": "Greedy parse terminates on every input for every dictionary. (Holds when no dictionary word is empty.)", "quantifier": "every dictionary and input", "why_tests_cant": "non-termination cannot be observed by a test that passes", "anchors": ["core/src/main/cpp/algorithm/int_dict_p.cc: linearParse while loop"]}
{"id": "C12", "title": "Weighted parse is lossless", "statement": "parse(seq, freqs, total) appends indices whose words, concatenated in order, are exactly seq; every index is valid; no out-of-bounds access happens; the dictionary only grows by one-symbol words.", "quantifier": "every reachable dictionary without the empty word, every input up to 2^40 symbols, every frequency table, IEEE double arithmetic with any bounded logarithm", "why_tests_cant": "needs all inputs and all weightings; the backtrack loop silently relies on every prefix having been reached", "anchors": ["core/src/main/cpp/algorithm/int_dict_p.cc: weightedParse, parse(seq, freqs, total_freq, output)"]}
{"id": "C13", "title": "Weighted parse is optimal", "statement": "On a dictionary of distinct words containing every symbol of the input, the parse returned has the greatest total log-probability (summed left to right) among all ways to split the input into dictionary words.", "quantifier": "every complete duplicate-free dictionary, every input, every frequency table", "why_tests_cant": "exponentially many competing segmentations", "anchors": ["core/src/main/cpp/algorithm/int_dict_p.cc: weightedParse"]}
{"id": "C14", "title": "Parse only appends to the caller's buffer and returns its size", "statement": "Both parse overloads leave what was already in the output vector untouched, append the parse, and return the total number of elements then in the vector.", "quantifier": "every dictionary, input and initial output contents", "why_tests_cant": "needs arbitrary initial buffers", "anchors": ["core/src/main/cpp/algorithm/int_dict_p.cc: parse (both overloads)"]}
{"id": "C15", "title": "Parse with exclusions inside the statistics is safe when all symbols are present", "statement": "Scoring a multi-symbol word by re-parsing it without itself always yields a split into at least two dictionary words, without undefined behaviour, provided every symbol of the word is a dictionary word; without that proviso it reads index -1.", "quantifier": "every duplicate-free dictionary, every multi-symbol word, every set of excluded multi-symbol words", "why_tests_cant": "the missing check on -1 only bites for dictionaries lacking a symbol", "anchors": ["core/src/main/cpp/algorithm/stat_dict_p.cc: StatDictImpl::weightedParse, stat_items"]}
{"id": "C16", "title": "Symbol coding round-trips", "statement": "decode(encode(s)) = s, and stays so after any later encode calls.", "quantifier": "every history of encode calls and every sequence", "why_tests_cant": "all histories", "anchors": ["core/src/main/cpp/interfaces/seq_coder.cc: encode, decode"]}
{"id": "C17", "title": "Symbol codes are dense, in order of first occurrence, and stable", "statement": "After any history the codes in use are exactly 0..n-1 where n is the number of distinct symbols encoded; symbols are numbered by first occurrence; a symbol's code never changes.", "quantifier": "every history of encode calls", "why_tests_cant": "all histories", "anchors": ["core/src/main/cpp/interfaces/seq_coder.cc: encode, code_map"]}
{"id": "C18", "title": "Read-only coding drops exactly the unknown symbols", "statement": "encode_immutable(s) does not change the coder, equals encode(s) when all symbols are known, and otherwise is encode of s with the unknown symbols removed.", "quantifier": "every coder history and every sequence", "why_tests_cant": "all histories", "anchors": ["core/src/main/cpp/interfaces/seq_coder.cc: encode_immutable"]}
{"id": "C19", "title": "Decoding throws exactly on codes never issued", "statement": "decode(v) throws out_of_range exactly when v contains a value that no encode call has returned.", "quantifier": "every coder history and every vector", "why_tests_cant": "all histories", "anchors": ["core/src/main/cpp/interfaces/seq_coder.cc: decode"]}
{"id": "C20", "title": "Tokenizer ids round-trip to the normalized text", "statement": "For a fresh tokenizer and any history of transform calls, decode(transform(s)) is the concatenation of the tokens of normalize(s), and ids never change; transform and decode of many texts do the same text by text. (Depends on the evaluation order of `forward_coder_[symb] = forward_coder_.size()`, which C++14 leaves unspecified.)", "quantifier": "every history of transform calls, every text, both permitted evaluation orders", "why_tests_cant": "a test sees only the evaluation order of one compiler", "anchors": ["core/src/main/cpp/interfaces/tokenizers/base_tokenizer.cc: transform, decode"]}
{"id": "C21", "title": "Character normalization", "statement": "normalize keeps exactly the ASCII letters and digits of the text, in order, lower-cased; it is idempotent; tokenize splits into single characters; so decode(transform(s)) = normalize(s) for the default tokenizer.", "quantifier": "every ASCII text", "why_tests_cant": "unbounded texts", "anchors": ["core/src/main/cpp/interfaces/tokenizers/char_tokenizer.cc: normalize, tokenize"]}
{"id": "C22", "title": "Word tokenization preserves the text", "statement": "The tokens of a text are non-empty, and joining them with single spaces gives back the text, except that one trailing space may be lost. (Tokens may themselves contain spaces when the text has leading or repeated spaces.)", "quantifier": "every text", "why_tests_cant": "unbounded texts, repeated/leading/trailing spaces in any combination", "anchors": ["core/src/main/cpp/interfaces/tokenizers/word_tokenizer.cc: tokenize"]}
{"id": "C23", "title": "A tokenizer restored from a map still assigns fresh ids", "statement": "A tokenizer constructed from an existing token->id map gives every new token an id that no other token has. (Holds when the ids of the map are 0..n-1; fails for maps with gaps.)", "quantifier": "every token map and every later history", "why_tests_cant": "fails only for maps whose ids are not 0..n-1", "anchors": ["core/src/main/cpp/interfaces/tokenizers/base_tokenizer.cc: BaseTokenizer(forward_map), transform", "core/src/main/cpp/interfaces/loader.h: load_tokenizer"]}
{"id": "C24", "title": "Statistics conserve mass", "statement": "After any sequence of parses, the frequencies reported by a statistics dictionary add up to the number of words emitted, and frequency times word length adds up to the number of symbols consumed.", "quantifier": "every initial dictionary and every sequence of parsed inputs", "why_tests_cant": "all histories", "anchors": ["core/src/main/cpp/algorithm/stat_dict_p.cc: parse, update_symbol, freq"]}
{"id": "C25", "title": "Pair statistics count adjacent words", "statement": "The recorded count of an ordered pair of words equals the number of times the second immediately follows the first inside one parse, for all pairs, and different pairs never share a counter.", "quantifier": "every history of parses; every pair of indices below 2^31", "why_tests_cant": "bit packing collisions and all histories", "anchors": ["core/src/main/cpp/algorithm/stat_dict_p.cc: parse (pairs_freqs_), expand (unpacking)"]}
{"id": "C26", "title": "Code length per char is the empirical entropy and is never negative", "statement": "code_length_per_char() equals (sum over words of freq*(ln power - ln freq))/chars and is >= 0, in exact arithmetic.", "quantifier": "every statistics state reachable by parsing", "why_tests_cant": "real-analysis inequality over all frequency vectors", "anchors": ["core/src/main/cpp/algorithm/stat_dict_p.cc: code_length_per_char"]}
{"id": "C27", "title": "Initial frequencies belong to their words", "statement": "When a statistics dictionary is created from words with initial frequencies, the prior frequency used for a word is the one supplied with it; the total is the sum supplied. (The first part holds when the words are given in lexicographic order and fails otherwise.)", "quantifier": "every list of words with frequencies", "why_tests_cant": "fails only when the words are not supplied in sorted order", "anchors": ["core/src/main/cpp/algorithm/stat_dict_p.cc: StatDictImpl(seqs, min_prob_result, init_freqs)", "core/src/main/cpp/algorithm/int_dict_p.cc: init"]}
{"id": "C28", "title": "update_symbol changes one counter", "statement": "update_symbol(i, f) adds f to the frequency of i and to the total and leaves every other frequency unchanged, growing the table if needed. (Fails after result_freqs() has padded the frequencies but not the parse counts.)", "quantifier": "every state, index and increment", "why_tests_cant": "all states", "anchors": ["core/src/main/cpp/algorithm/stat_dict_p.cc: update_symbol, freq"]}
{"id": "C29", "title": "Every v-gram occurs in the data", "statement": "Every word in the dictionary of a fresh builder is a contiguous piece of some accepted sequence (in particular no v-gram is invented and none is empty).", "quantifier": "every sequence of accept calls, every size, every outcome of random scoring and of unspecified sort and hash orders", "why_tests_cant": "all histories and all nondeterministic choices", "anchors": ["core/src/main/cpp/algorithm/int_vgram_builder_p.cc: accept, update", "core/src/main/cpp/algorithm/stat_dict_p.cc: expand, reduce"]}
{"id": "C30", "title": "The dictionary stays sorted, duplicate-free and complete", "statement": "As long as the requested size is at least the number of distinct symbols seen, after any accepted sequences the working dictionary is strictly sorted, has no duplicates or empty words, and contains the one-symbol word of every symbol accepted so far.", "quantifier": "every sequence of accept calls on a fresh stream object", "why_tests_cant": "all histories and all nondeterministic choices", "anchors": ["core/src/main/cpp/algorithm/int_vgram_builder_p.cc: accept, update", "core/src/main/cpp/interfaces/vgram_builders/int_stream_vgram.cc: accept"]}
{"id": "C31", "title": "Dictionary size respects the requested size", "statement": "Immediately after a reduction the result has at most `size` words. (True only up to the number of symbols first seen since the previous update.)", "quantifier": "every sequence of accept calls", "why_tests_cant": "all histories", "anchors": ["core/src/main/cpp/algorithm/int_vgram_builder_p.cc: update", "core/src/main/cpp/algorithm/stat_dict_p.cc: reduce, filter_stat_items"]}
{"id": "C32", "title": "Expansion keeps all words and adds only observed pairs; reduction only removes", "statement": "expand keeps every word of the dictionary and adds only concatenations of two words seen next to each other, each once; reduce returns a sub-collection of the dictionary's words that contains all one-symbol words when the slots suffice.", "quantifier": "every statistics state, every slot count, every score and order", "why_tests_cant": "all states and nondeterministic choices", "anchors": ["core/src/main/cpp/algorithm/stat_dict_p.cc: expand, reduce, filter_stat_items, stat_items, stat_item_to_text"]}
{"id": "C33", "title": "Counters do not overflow", "statement": "After every accept call, the total and every frequency of the working statistics are at most 20 000 000; int counters cannot overflow while accepting if each accepted sequence is shorter than 2^30 - 20 000 000 (the smoothed parse counts can reach twice 20 000 000 plus the length).", "quantifier": "every sequence of accept calls on a fresh builder", "why_tests_cant": "would need billions of symbols", "anchors": ["core/src/main/cpp/algorithm/int_vgram_builder_p.cc: accept, update, kMaxPower"]}
{"id": "C34", "title": "Accepting data is free of undefined behaviour", "statement": "accept never performs an out-of-bounds access, uses an invalidated iterator or loops forever, for every requested size, when symbols are numbered in order of first appearance (as the stream numbers them). (Holds when size is at least the number of distinct symbols; fails for smaller sizes.)", "quantifier": "every sequence of accept calls and every size", "why_tests_cant": "undefined behaviour is not observable by tests; needs particular sizes", "anchors": ["core/src/main/cpp/algorithm/int_vgram_builder_p.cc: accept, update", "core/src/main/cpp/algorithm/stat_dict_p.cc: expand (range-for over alphabet() while search may append)"]}
{"id": "C35", "title": "Minimum probability never increases", "statement": "Across updates the minimum probability of the working statistics never increases and never exceeds 0.002 for a fresh builder; get_min_probability() is -1 until the first reduction.", "quantifier": "every sequence of accept calls", "why_tests_cant": "all histories", "anchors": ["core/src/main/cpp/algorithm/int_vgram_builder_p.cc: update, get_min_probability", "core/src/main/cpp/algorithm/stat_dict_p.cc: expand, reduce"]}
{"id": "C36", "title": "result() is the working dictionary until the first reduction and then the last reduced one", "statement": "Before any reduction result() is the dictionary being grown; afterwards it is the dictionary produced by the latest reduction (plus symbols learned since), whatever expansion is in progress.", "quantifier": "every sequence of accept calls", "why_tests_cant": "all histories", "anchors": ["core/src/main/cpp/algorithm/int_vgram_builder_p.cc: result, alpha, update"]}
{"id": "C37", "title": "Stream parse is lossless on known symbols", "statement": "Concatenating alphabet()[i] for the ids i returned by parse(seq) gives seq with the never-accepted symbols removed.", "quantifier": "every history of accept/update calls on a fresh stream with adequate size; every seq", "why_tests_cant": "all histories", "anchors": ["core/src/main/cpp/interfaces/vgram_builders/int_stream_vgram.cc: parse, alphabet"]}
{"id": "C38", "title": "Stream parse does not change the model", "statement": "parse(seq) leaves alphabet() unchanged. (Holds when every known symbol of seq was learned by the dictionary in use; fails otherwise.)", "quantifier": "every history and every seq", "why_tests_cant": "needs specific interleavings of accept, update and parse", "anchors": ["core/src/main/cpp/interfaces/vgram_builders/int_stream_vgram.cc: parse", "core/src/main/cpp/algorithm/int_dict_p.cc: search append path"]}
{"id": "C39", "title": "freqs() is aligned with alphabet() after update()", "statement": "After update(), freqs() has one entry per alphabet() word and entry i is the frequency of word i. (Holds for the first update; fails from the second dictionary change on, because old entries are kept.)", "quantifier": "every history of accept/update calls", "why_tests_cant": "needs histories with two effective updates", "anchors": ["core/src/main/cpp/interfaces/vgram_builders/int_stream_vgram.cc: update_dict", "core/src/main/cpp/algorithm/int_vgram_builder_p.cc: result_freqs"]}
{"id": "C40", "title": "Calls before the first update()", "statement": "parse, alphabet and save on a fresh stream before the first update() dereference a null dictionary; freqs() is empty; after update() they are defined.", "quantifier": "every history of accept calls without update", "why_tests_cant": "undefined behaviour", "anchors": ["core/src/main/cpp/interfaces/vgram_builders/int_stream_vgram.cc: parse, alphabet, freqs, save"]}
{"id": "C41", "title": "alphabet() never throws", "statement": "After update(), alphabet() succeeds at every size: every code in the dictionary is known to the coder. The words returned are distinct. (Distinctness holds when the size leaves room for all symbols and the parses so far met only symbols of the alphabet; it fails otherwise.)", "quantifier": "every history of accept/update calls on a fresh stream with adequate size", "why_tests_cant": "all histories", "anchors": ["core/src/main/cpp/interfaces/vgram_builders/int_stream_vgram.cc: alphabet", "core/src/main/cpp/interfaces/seq_coder.cc: decode"]}
{"id": "C42", "title": "save() reads only existing frequencies", "statement": "save() never reads past the end of the frequency table. (Holds right after the first update; fails after accepting a new symbol following update.)", "quantifier": "every history of accept/update/save calls", "why_tests_cant": "undefined behaviour", "anchors": ["core/src/main/cpp/interfaces/saver.h: alphabet_to_json", "core/src/main/cpp/interfaces/vgram_builders/int_stream_vgram.cc: save"]}
{"id": "C43", "title": "Fitting happens once", "statement": "Once fit has completed, any further fit call returns the object unchanged.", "quantifier": "every fitted object and every data set", "why_tests_cant": "all data sets", "anchors": ["core/src/main/cpp/interfaces/vgram_builders/int_vgram.cc: fit"]}
{"id": "C44", "title": "After fit, freqs() counts the parse of the training data", "statement": "After fit(X), freqs()[i] is the number of times word i occurs in parses of X, one per sequence, and frequency times word length adds up to the total length of X; no out-of-bounds write occurs. (Holds when at least one round is made and every symbol of X is in the alphabet after the sampling. Fails, with an out-of-bounds write, when rand() did not select some symbol, and also when a symbol was first selected after the builder had fixed its result.)", "quantifier": "every data set, every outcome of rand()", "why_tests_cant": "depends on which sequences rand() happens to select", "anchors": ["core/src/main/cpp/interfaces/vgram_builders/int_vgram.cc: fit, recompute_freqs"]}
{"id": "C45", "title": "transform is element-wise", "statement": "transform(X) has one result per sequence, in order, each equal to parse of that sequence alone, and does not change the object, when all known symbols are in the dictionary.", "quantifier": "every fitted object and every batch", "why_tests_cant": "all batches", "anchors": ["core/src/main/cpp/interfaces/vgram_builders/int_vgram.cc: transform, isTerminated"]}
{"id": "C46", "title": "transform output strings are unambiguous", "statement": "The string returned for a sequence determines the list of ids: it is \"-1\" for no ids and otherwise the decimal ids each preceded by one space.", "quantifier": "every list of ids", "why_tests_cant": "injectivity over all lists", "anchors": ["core/src/main/cpp/interfaces/vgram_builders/int_vgram.cc: transform_to_string"]}
{"id": "C47", "title": "An interrupted fit is not marked as fitted", "statement": "If a signal interrupts fit during sampling, fit returns null and the object is still unfitted, so a later fit trains again.", "quantifier": "every interruption point", "why_tests_cant": "all interruption points", "anchors": ["core/src/main/cpp/interfaces/vgram_builders/int_vgram.cc: fit, isTerminated", "binding/src/main/cpp/py_int_vgram_builder.h: isTerminated"]}
{"id": "C48", "title": "String stream parse spells the normalized text", "statement": "Concatenating the pieces returned by StreamVGram.parse(text) gives normalize(text) restricted to the characters seen by accept.", "quantifier": "every history on a fresh stream with adequate size, every ASCII text", "why_tests_cant": "all histories", "anchors": ["core/src/main/cpp/interfaces/vgram_builders/string_stream_vgram.cc: accept, parse"]}
{"id": "C49", "title": "VGram.transform separates words by single spaces", "statement": "Each output string consists of the dictionary words of the text separated by single spaces; removing the spaces gives the normalized text restricted to known characters.", "quantifier": "every fitted object, every list of ASCII texts", "why_tests_cant": "all texts", "anchors": ["core/src/main/cpp/interfaces/vgram_builders/string_vgram.cc: transform"]}
{"id": "C50", "title": "Incompatible options are rejected", "statement": "Constructing a string stream throws invalid_argument exactly when inner_words_split and words_are_tokens are both set; words_are_tokens selects word tokenization, otherwise characters. A stream made from an integer stream and a tokenizer rejects the same combination; there the options have no other effect.", "quantifier": "all option combinations", "why_tests_cant": "small but exhaustive", "anchors": ["core/src/main/cpp/interfaces/vgram_builders/string_stream_vgram.cc: StringStreamVGram, check_args"]}
{"id": "C51", "title": "Saving and loading a stream preserves it", "statement": "Loading a saved integer stream gives an object with the same size, minimum probability, symbol codes, alphabet(), freqs(), and the same parse result on every input, when the dictionary was sorted and the frequency table complete.", "quantifier": "every stream state reachable with adequate size", "why_tests_cant": "all states", "anchors": ["core/src/main/cpp/interfaces/saver.h", "core/src/main/cpp/interfaces/loader.h: load_int_stream_vgram, read_coder, read_alphabet", "core/src/main/cpp/interfaces/vgram_builders/int_stream_vgram.cc: loading constructor"]}
{"id": "C52", "title": "Saving and loading a text model preserves it", "statement": "Loading a saved VGram gives an object with the same alphabet() texts, freqs(), fitted state and transform results on ASCII texts whose characters are in the dictionary.", "quantifier": "every fitted text model with adequate size", "why_tests_cant": "all states", "anchors": ["core/src/main/cpp/interfaces/saver.h", "core/src/main/cpp/interfaces/loader.h: load_string_vgram, load_tokenizer"]}
{"id": "C53", "title": "A saved IntVGram can be loaded as IntVGram", "statement": "IntVGram.load(file) succeeds on a file written by IntVGram.save. (Fails: the inherited save omits the fitted flags.)", "quantifier": "every IntVGram state", "why_tests_cant": "the example tests for it are not runnable; static overload resolution decides", "anchors": ["core/src/main/cpp/interfaces/vgram_builders/int_stream_vgram.cc: save", "core/src/main/cpp/interfaces/saver.h: save overloads", "core/src/main/cpp/interfaces/loader.h: read_fitable_dict"]}
{"id": "C54", "title": "A truncated save file is never mistaken for a model", "statement": "If a save is cut short at any byte, loading the file throws instead of producing a model.", "quantifier": "every crash point while writing, every saved model", "why_tests_cant": "all crash points", "anchors": ["core/src/main/cpp/interfaces/saver.h: write_to_file", "core/src/main/cpp/interfaces/loader.h: read_dict_json"]}
{"id": "C55", "title": "Printing a sequence", "statement": "to_string and operator<< of a sequence print its numbers separated by single spaces in parentheses. (Fails for the empty sequence: size()-1 wraps around.)", "quantifier": "every sequence", "why_tests_cant": "undefined behaviour on the empty sequence", "anchors": ["core/src/main/cpp/algorithm/int_dict.cc: to_string, operator<<"]}
{"id": "C56", "title": "Sequence hash respects equality and stays in 64 bits", "statement": "Equal sequences hash equally, the hash is the stated 64-bit wrap-around recurrence and fits in 64 bits.", "quantifier": "every sequence", "why_tests_cant": "all sequences", "anchors": ["core/src/main/cpp/algorithm/vector_hash.h: VectorHash"]}
{"id": "C57", "title": "List encoder assigns ids to new items", "statement": "Encoder.encode outputs one id per item, equal items getting equal ids. (Fails: the iterator obtained before insertion is the end iterator.)", "quantifier": "every input with a new item", "why_tests_cant": "undefined behaviour", "anchors": ["core/src/main/cpp/algorithm/list_dict.h: Encoder::encode, ListDict::parse"]}
{"id": "C58", "title": "Dirichlet samples are probability vectors", "statement": "For positive gamma draws the sample entries are positive and add up to one, in exact arithmetic; repeated draws with the same parameters are equal because the generator is re-created.", "quantifier": "every parameter vector and every draw", "why_tests_cant": "all draws", "anchors": ["core/src/main/cpp/algorithm/fast_random.cc: next_dirichlet"]}
{"id": "C59", "title": "A loaded word-token stream keeps tokenizing by words", "statement": "A stream saved with words_are_tokens tokenizes the same way after loading. (Fails: loading always uses the character tokenizer.)", "quantifier": "every saved word-token stream", "why_tests_cant": "needs a round trip with that option", "anchors": ["core/src/main/cpp/interfaces/loader.h: load_tokenizer, load_string_stream_vgram"]}
{"id": "C60", "title": "Word discovery score depends only on counts", "statement": "The score of a candidate pair is a function of its count, the counts of pairs starting with the same first word and ending with the same second word, and the total, and all ten sampling rounds contribute the same value.", "quantifier": "every statistics state and every pair", "why_tests_cant": "all states", "anchors": ["core/src/main/cpp/algorithm/stat_dict_p.cc: expand", "core/src/main/cpp/algorithm/fast_random.cc"]}
{"id": "C61", "title": "An interrupted VGram.fit is not reported", "statement": "A VGram is built over an IntVGram of a derived class (constructor with shared_ptr<IntVGram>). When isTerminated of that object answers true while VGram.fit samples the texts, fit returns as if it had completed although the object is not fitted; if that was before the end of the first round, or if fit was never called on any VGram, every later transform, even of no text, dereferences a null dictionary.", "quantifier": "every data set, every random sequence, every point of interruption", "why_tests_cant": "unit tests do not interrupt, and there is one case per point of interruption", "anchors": ["core/src/main/cpp/interfaces/vgram_builders/string_vgram.cc: constructors, fit, transform", "core/src/main/cpp/interfaces/vgram_builders/int_vgram.cc: fit, isTerminated"]}
{"id": "C62", "title": "Parsing one text never changes how another is read, also after loading", "statement": "Parsing a text with a text stream that was saved and loaded changes neither what alphabet() returns nor how other texts are parsed. (Fails: load_tokenizer rebuilds the token map from the alphabet only; when a character was met in a parse but not in training, the numbers have gaps, and the loaded tokenizer hands out a number that is in use.)", "quantifier": "every life of a text stream with any number of save and load cycles", "why_tests_cant": "needs two save and load cycles with a parse of an unknown character between", "anchors": ["core/src/main/cpp/interfaces/loader.h: load_tokenizer", "core/src/main/cpp/interfaces/tokenizers/base_tokenizer.cc: transform"]}
{"id": "C63", "title": "Decoding is word by word and skips ids that were never given out", "statement": "Tokenizer.decode of a list of ids is the concatenation of what decode gives for the parts; an id that transform returned decodes to its token; an id that transform never returned decodes to the empty text and does not affect the ids around it.", "quantifier": "every tokenizer kind, every series of transform calls, every list of ids", "why_tests_cant": "all histories and all lists of ids, including ids that mean nothing", "anchors": ["core/src/main/cpp/interfaces/tokenizers/base_tokenizer.cc: transform, decode"]}
{"id": "C64", "title": "Training can be continued after loading", "statement": "A stream that was saved and loaded keeps its learnt words while they are useful, within the requested size, when more sequences are accepted and update is called. (Fails: the loading constructor of the builder takes all words of the file for symbols and the number of words for the size, so a reduction has no slot left for words of two or more symbols. After the first reduction every update leaves one-symbol words only.)", "quantifier": "every loadable model file, every history after loading, every environment", "why_tests_cant": "the words disappear only after two rounds of statistics collection, and the claim is about every file and history", "anchors": ["core/src/main/cpp/algorithm/int_vgram_builder_p.cc: loading constructor, update", "core/src/main/cpp/algorithm/stat_dict_p.cc: reduce", "core/src/main/cpp/interfaces/vgram_builders/int_stream_vgram.cc: loading constructor, update"]}
{"id": "C65", "title": "Stream frequencies add up to no more than what was accepted", "statement": "At any time the frequencies of a stream are not negative and their sum, which is the total that the stream keeps, is at most the number of symbols accepted so far (for a loaded stream: plus the sum of the frequencies in the file). So none of these ints overflows before 2^31 symbols have been accepted.", "quantifier": "every history of accept, parse and update on a new or loaded stream (calm, adequate size), every environment", "why_tests_cant": "overflow would need billions of symbols; the claim is about every history", "anchors": ["core/src/main/cpp/interfaces/vgram_builders/int_stream_vgram.cc: update, freqs", "core/src/main/cpp/algorithm/int_vgram_builder_p.cc: result_freqs", "core/src/main/cpp/algorithm/stat_dict_p.cc: parse, reset"]}
{"id": "C66", "title": "Only the pattern of equal symbols matters", "statement": "If all symbols given to a stream or IntVGram are renamed one to one, every call ends as before, parse, transform and freqs return the same values, and the words of alphabet() are the old ones renamed.", "quantifier": "every injective renaming, every series of calls, every environment, every floating-point arithmetic", "why_tests_cant": "all pairs of runs, all renamings", "anchors": ["core/src/main/cpp/interfaces/seq_coder.cc", "core/src/main/cpp/interfaces/vgram_builders/int_stream_vgram.cc", "core/src/main/cpp/interfaces/vgram_builders/int_vgram.cc"]}
{"id": "C67", "title": "Loading a file that is not a model throws", "statement": "Every text that is given to a load function is either loaded or rejected with an exception; texts that are not json give a parse error, and only files with a size, a minimum probability and complete entries are loaded; as IntVGram and VGram only files whose two flags are true or false, as StreamVGram and VGram only files with a text for every single symbol. (Fails in two cases, and only there: an entry of the alphabet without one of its keys is undefined behaviour, because operator[] is called on a const object, and so is a number outside int that is written with a fraction or exponent.)", "quantifier": "every file content, all four load functions", "why_tests_cant": "all file contents", "anchors": ["core/src/main/cpp/interfaces/loader.h", "core/src/main/cpp/interfaces/json.h: operator[], get_arithmetic_value, sax_parse_internal"]}
{"id": "C68", "title": "Loaded words have the frequencies that the file gives them", "statement": "A loaded stream has the size, the minimum probability and the words of the file, and every word has the frequency of its entry. (Fails when the entries are not in lexicographic order of their codes: the words are sorted, the frequencies are not.)", "quantifier": "every model file", "why_tests_cant": "all files; files written by save are always in order", "anchors": ["core/src/main/cpp/interfaces/loader.h: read_alphabet", "core/src/main/cpp/interfaces/vgram_builders/int_stream_vgram.cc: loading constructor", "core/src/main/cpp/algorithm/int_dict_p.cc: init"]}
{"id": "C69", "title": "Calling update() again", "statement": "A second update() right after the first changes nothing, and update() either installs another dictionary or leaves the stream as it is. After more data has been accepted, update() brings freqs() up to date. (The last part fails: as long as the builder has made no new dictionary, update() does nothing, and freqs() keeps the counts of the first call.)", "quantifier": "every state of a stream, every series of calls after an update", "why_tests_cant": "all states and histories; the stale counts show up only until the first rebuild", "anchors": ["core/src/main/cpp/interfaces/vgram_builders/int_stream_vgram.cc: update"]}
{"id": "C70", "title": "The file of a copy is the same file", "statement": "Save a stream or a fitted text model and load it, any number of times and with parses or transforms in between: every copy is saved to the very same bytes.", "quantifier": "every calm history of a stream with a complete frequency table and every good fit, every chain of saves, loads and parses", "why_tests_cant": "all models, all chains; depends on the order of hash maps not showing in the file", "anchors": ["core/src/main/cpp/interfaces/saver.h", "core/src/main/cpp/interfaces/loader.h"]}
{"id": "C71", "title": "Training resumes after loading", "statement": "If training was stopped and the model saved, fit on the loaded model goes on training. (Fails for every file: the number of rounds is not saved, so fit on a loaded model draws no sample, keeps the alphabet, counts frequencies only, and marks the model as fitted; data with a new symbol runs out of bounds.)", "quantifier": "every file, every data, every outcome of rand()", "why_tests_cant": "all files and all random choices", "anchors": ["core/src/main/cpp/interfaces/vgram_builders/int_vgram.cc: loading constructor, fit", "core/src/main/cpp/interfaces/loader.h"]}
{"id": "C72", "title": "Saving is all or nothing", "statement": "A call of save replaces the file by the complete new model, or throws and leaves the file as it was. (Fails: if a text of the alphabet is not UTF-8, and only then, save throws after it has emptied the file and written a part that no load function accepts. Models of integers, streams of characters and streams of words fed with UTF-8 texts are safe.)", "quantifier": "every model, every old content of the file, every sequence of accept, parse and update calls, every text", "why_tests_cant": "all texts and all histories; the damage shows only when the file is loaded later", "anchors": ["core/src/main/cpp/interfaces/saver.h: write_to_file", "core/src/main/cpp/interfaces/json.h: dump, dump_escaped, decode"]}
{"id": "C73", "title": "Objects that share a tokenizer do not notice each other", "statement": "Several StringStreamVGram and StringVGram objects are built over one tokenizer (shared_ptr), which the program also uses itself. Every call on an object returns what it would return if the object had a tokenizer of its own and none of the other calls were made; this includes calls that fail.", "quantifier": "every number of objects, every interleaving of calls, every text, every outcome of rand() and of the updates", "why_tests_cant": "all interleavings; token ids differ from those of a single object and pass through coder, dictionary and decoder", "anchors": ["core/src/main/cpp/interfaces/vgram_builders/string_stream_vgram.cc: constructor with shared_ptr, accept, parse, alphabet", "core/src/main/cpp/interfaces/vgram_builders/string_vgram.cc: constructor with shared_ptr, fit, transform, alphabet", "core/src/main/cpp/interfaces/tokenizers/base_tokenizer.cc: transform, decode"]}
{"id": "C74", "title": "A fit that returns has counted all of the data", "statement": "When fit of an IntVGram returns the object, the frequencies count the words of the readings of all sequences. This fails when a signal comes while the frequencies are counted: fit returns the object, it is marked as fitted, the frequencies describe only the sequences up to that point, total and frequencies disagree, and no later fit repairs this.", "quantifier": "every data set, every random sequence, every point of the counting at which the first signal comes", "why_tests_cant": "unit tests do not interrupt; there is one case per point", "anchors": ["core/src/main/cpp/interfaces/vgram_builders/int_vgram.cc: fit, recompute_freqs, isTerminated", "binding/src/main/cpp/py_int_vgram_builder.h: isTerminated"]}
{"id": "C75", "title": "Ctrl-C stops a fit that runs in Python", "statement": "A signal that arrives while a Python IntVGram made by its constructor samples stops fit right after the sequence being processed: fit returns null, the object is not fitted, and it is in the state after exactly the sequences drawn so far. This fails for every VGram and for every object made by load: all their calls give the same answers and the same state whatever signals arrive.", "quantifier": "every data set, every random sequence, every point at which a signal arrives, every sequence of fit and transform calls", "why_tests_cant": "unit tests do not interrupt; which isTerminated runs depends on how the object was made", "anchors": ["binding/src/main/cpp/py_int_vgram_builder.h: load, isTerminated", "binding/src/main/cpp/py_vgram_builder.h: load, constructors", "binding/src/main/cpp/bind_vgram.cc", "core/src/main/cpp/interfaces/vgram_builders/string_vgram.cc: constructors", "core/src/main/cpp/interfaces/loader.h: load_int_vgram, load_string_vgram"]}
{"id": "C76", "title": "Long words take long training", "statement": "A new stream rebuilds its dictionary at most once for every 1152 symbols it accepts, however it is used. A word of more than 2^k symbols can be in its alphabet only after at least (2k+1)*1152 accepted symbols; with fewer than 1152 symbols every word is a single symbol. For fit the number of accepted symbols is at most iter_num times the number of sequences times the length of the longest, so that small data with a small iter_num gives single symbols only (the second example of the README is such a case).", "quantifier": "every sequence of accept, parse and update calls within the size limits of the model, every environment, every fit", "why_tests_cant": "the bound is over all histories and over all orders of ties and hash maps; a test sees one history", "anchors": ["core/src/main/cpp/algorithm/stat_dict_p.cc: enough, kMaxMinProbability", "core/src/main/cpp/algorithm/int_vgram_builder_p.cc: accept, update", "core/src/main/cpp/interfaces/vgram_builders/int_vgram.cc: fit", "README.md: Working with integer sequences"]}
{"id": "C77", "title": "A saved stream can be trained on after loading", "statement": "Training goes on after save and load as it would without: words of the alphabet are not lost by accepting a few symbols more. This holds for files with a usable minimum probability: such a stream keeps all words of the file until it has accepted 2304 symbols. It fails for every file of a stream that has made fewer than two rebuilds (in particular after fewer than 2304 symbols): the file has minimum probability -1, the loaded stream rebuilds at every accept, even of an empty sequence, and after two accepts and an update only words of one symbol are left.", "quantifier": "every history before saving, every loadable file, every history after loading", "why_tests_cant": "the minimum probability is hidden state; the effect needs saving at the right time, loading and more training", "anchors": ["core/src/main/cpp/algorithm/int_vgram_builder_p.cc: get_min_probability, accept, update", "core/src/main/cpp/interfaces/vgram_builders/int_stream_vgram.cc: update, loading constructor", "core/src/main/cpp/interfaces/saver.h", "core/src/main/cpp/interfaces/loader.h"]}
{"id": "C78", "title": "Accepting nothing changes nothing", "statement": "accept of an empty sequence leaves a stream exactly as it was, whatever has happened before, so that nothing observable later differs. This holds for new streams and for streams loaded with a usable minimum probability, and fails for streams loaded with minimum probability -1.", "quantifier": "every history of a new or loaded stream, every environment", "why_tests_cant": "the claim is about all states and about everything that can be observed later", "anchors": ["core/src/main/cpp/interfaces/vgram_builders/int_stream_vgram.cc: accept", "core/src/main/cpp/algorithm/int_vgram_builder_p.cc: accept", "core/src/main/cpp/algorithm/stat_dict_p.cc: parse, enough"]}
{"id": "C79", "title": "How a model file is written does not matter", "statement": "A model file that another program has rewritten loads to the same object: white space, escapes, a byte order mark, the order of the members and what follows the value make no difference; of members with the same name the last counts. A text is read exactly if it starts with a text of the JSON grammar (RFC 8259, in UTF-8), and every other text is rejected with a parse error. Every file written by save is such a text.", "quantifier": "every text, every value, every way to write it, all four load functions, every saved file", "why_tests_cant": "a value has infinitely many texts, and the set of rejected texts is infinite too", "anchors": ["core/src/main/cpp/interfaces/json.h: lexer::scan, scan_string, get_codepoint, next_byte_in_range, scan_number, skip_bom; parser::parse; dump", "core/src/main/cpp/interfaces/loader.h", "core/src/main/cpp/interfaces/saver.h"]}
{"id": "C80", "title": "What the frequencies of text objects and of short trainings count", "statement": "After the first update of a text stream, freqs() has one number per word of alphabet(): how often the word is used in readings of the accepted texts that are in the window (C39), one reading per text. After fit of a text model, how often it is used in readings of the training texts, so that frequency times length adds up to the length of the normalized texts. While fewer than 1152 symbols have been accepted (for fit: iterations * texts * longest text), the words are exactly the tokens that occur, and the frequencies are exactly the numbers of their occurrences, whatever the random numbers are.", "quantifier": "every history of accepted texts, every fit that runs well, both tokenizers, every size that leaves room for the tokens", "why_tests_cant": "all texts, histories and random draws; the correspondence of words and frequencies goes through two codings", "anchors": ["core/src/main/cpp/interfaces/vgram_builders/string_stream_vgram.cc: update, freqs, alphabet", "core/src/main/cpp/interfaces/vgram_builders/string_vgram.cc: fit, freqs, alphabet", "core/src/main/cpp/interfaces/vgram_builders/int_stream_vgram.cc: update, freqs", "core/src/main/cpp/interfaces/vgram_builders/int_vgram.cc: fit"]}
{"id": "C81", "title": "What a reduction keeps", "statement": "When the builder shrinks its dictionary, every used word of more than one symbol has a cost: the growth of the code length of the data if the uses of this word were written with other words of the dictionary. Only used words of positive cost are kept; a word of positive cost is dropped only if the reduced dictionary is full, and then no kept word has a smaller cost. In exact arithmetic the cost is never below the true growth of the code length and equals it if no part is used twice in the replacement. Two things fail: with a repeated part the cost can be positive although removal shortens the code, so the word is kept ('aa' used ten times and 'a' once); and the replacement may use a word that the same reduction drops, because the loop over the prefixes of a found word does not look at the excluded words.", "quantifier": "every dictionary that contains the single symbols of its words, every sequence of accepted inputs, every slot count, every IEEE double execution with a faithful log", "why_tests_cant": "the choice depends on floating-point costs of all words at once; that nothing better was dropped is a statement over all words and all histories", "anchors": ["core/src/main/cpp/algorithm/stat_dict_p.cc:178-274 (reduce, filter_stat_items, stat_items, weightedParse)", "core/src/main/cpp/algorithm/int_dict_p.cc:69-130 (weightedParse)"]}
{"id": "C82", "title": "What an expansion adds", "statement": "When the builder grows its dictionary, the result is the old words followed by texts of pairs of neighbouring words, best first, each text once and with the count of its pair as frequency. No pair of negative worth is added. A pair's text is missing only if a pair with this text has negative worth, or if all slots are used up by pairs that are worth at least as much. The worth is computed from four counts: of the pair, of its first word in front, of its second word at the end, and of all pairs. In exact arithmetic it is count * P(second|first) * ln(P(both)/(P(first)P(second))) for the drawn probabilities, and it is not negative exactly if the odds ratio of the draw is at least one. The reported minimum probability becomes the least share of an added pair if that is smaller.", "quantifier": "every dictionary that contains the single symbols of its words, every sequence of accepted inputs, every number of slots, all gamma draws in the admitted range, every iteration order of the pair table", "why_tests_cant": "a choice among all pairs by random floating-point scores; that nothing better is left out quantifies over all pairs, draws and histories", "anchors": ["core/src/main/cpp/algorithm/stat_dict_p.cc:103-176 (expand)", "core/src/main/cpp/algorithm/stat_dict_p.h (StatItem)"]}
{"id": "C83", "title": "When a stream rebuilds its dictionary", "statement": "A stream counts the words it reads since its last rebuild. The next accept rebuilds the dictionary exactly if the count then exceeds -log(p)/m or 20,000,000. p starts at 0.1 and is multiplied by 0.8 at every rebuild that is at least the fourth in a row whose compression rate is not better than all rates before (one at the start). m is the current minimum probability. The rate is the ideal code length of the words read, in bytes per symbol. As a consequence periods do not become shorter: each period has more words than every earlier period had before the sequence that ended it.", "quantifier": "every sequence of calls on a new or loaded stream with defined behaviour, every environment, all lengths up to the stated bounds", "why_tests_cant": "a statement about all histories: the threshold depends on all earlier rates through a chain of floating-point comparisons", "anchors": ["core/src/main/cpp/algorithm/int_vgram_builder_p.cc:58-106 (accept, update)", "core/src/main/cpp/algorithm/stat_dict_p.cc:86-88 (enough)"]}
{"id": "C84", "title": "What code_length() of a builder reports", "statement": "code_length() of a builder measures the words of its current result on the sequences accepted since the reduction that produced that result (since loading, for a loaded builder), up to and including the one at which the next expansion happens; later sequences do not count. Each of these sequences has been read once as a series of words of the result. The value is (P log P - sum of f log f) / C, where f is how often a word was used, P is the number of words used, C is the number of symbols read. In exact arithmetic this is the entropy of the words per symbol, between 0 and the logarithm of the number of words. Before the first reduction the call dereferences a null pointer. Right after a reduction or loading, when nothing has been read, it returns NaN.", "quantifier": "every sequence of calls on a builder that is new, made from an alphabet or loaded, every environment, all lengths up to the stated bounds", "why_tests_cant": "the measured sequences depend on the whole history of expansions and reductions; the counts must match some reading of each of them, for all histories", "anchors": ["core/src/main/cpp/algorithm/int_vgram_builder_p.cc:139-141 (code_length)", "core/src/main/cpp/algorithm/int_vgram_builder_p.cc:58-118 (accept, update)", "core/src/main/cpp/algorithm/stat_dict_p.cc:76-84 (code_length_per_char)", "core/src/main/cpp/algorithm/int_vgram_builder.h:20"]}
{"id": "C85", "title": "Training can go on after fit", "statement": "An integer v-gram object can be used in any order: fit (completed or interrupted), transform, accept, update and parse, also more training after fit. As soon as a dictionary exists, parse is defined and spells the sequence without the symbols that were never accepted, and the alphabet is defined and its words are contiguous pieces of accepted sequences. With room for all symbols accept is always defined, and so is update; a fitted object stays fitted. Nothing but fit and an update that takes over another dictionary changes freqs(). But such an update appends the frequencies of the new dictionary to the ones fit had computed, so that freqs() does not match alphabet() any more (the intended reading, one frequency per word, is refuted).", "quantifier": "every sequence of calls of fit, transform, accept, update and parse on a new object, with all answers of rand() and isTerminated() and all environments, provided the data that fit counts has no symbol never accepted; lengths up to the stated bounds", "why_tests_cant": "arbitrary interleavings of calls of two interfaces that share one dictionary; a test fixes one order", "anchors": ["docs/source/builder.rst:87-89", "core/src/main/cpp/interfaces/vgram_builders/int_vgram.cc:28-80 (fit, recompute_freqs)", "core/src/main/cpp/interfaces/vgram_builders/int_vgram.cc:102-113 (transform)", "core/src/main/cpp/interfaces/vgram_builders/int_stream_vgram.cc:28-57 (accept, parse, update_dict)"]}
{"id": "C86", "title": "Numbering the tokens yourself is equivalent", "statement": "A text object behaves like the integer object that is given the same texts as sequences of token numbers, whatever the numbering, as long as different tokens have different numbers. For VGram and IntVGram with the same size, number of rounds and random draws: after the same calls of fit and transform the frequencies are the same, alphabet() lists the same words in the same order, fit comes out the same, and transform divides every text into the same words (the text object lists their texts separated by spaces, the integer object their indices). Likewise for StreamVGram and IntStreamVGram with accept, update and parse. Hence texts with the same tokens, which differ only in case and punctuation, can be exchanged for each other. But the indices which IntVGram.transform returns are not token numbers: decoding them with the tokenizer, as the example in the README does, gives a different text (refuted).", "quantifier": "every one-to-one numbering of the tokens, every series of calls that come back, all sizes, rounds, texts, random draws and interruptions, every float interface", "why_tests_cant": "the claim is about all numberings and all histories, and compares two objects of different classes", "anchors": ["README.md:36-54", "core/src/main/cpp/interfaces/vgram_builders/string_vgram.cc:25-57", "core/src/main/cpp/interfaces/vgram_builders/string_stream_vgram.cc:38-64", "core/src/main/cpp/interfaces/tokenizers/base_tokenizer.cc:21-65"]}
{"id": "C87", "title": "Which classes a file can be loaded as", "statement": "Every file that loads as VGram loads as IntVGram and as StreamVGram, and every file that loads as one of these loads as IntStreamVGram; the objects loaded from one file hold the same model, so that transform of the VGram gives the pieces of parse of the StreamVGram separated by spaces. The file of a fitted VGram loads as all four classes, with the same alphabet, frequencies, parses and flags as the saved object. The files of an IntStreamVGram and of a fitted IntVGram load as IntStreamVGram only: load as IntVGram and as VGram throws, load as StreamVGram looks up a member that is not there (undefined behaviour). This holds although save was given a tokenizer; so saving an IntVGram with a tokenizer and loading it as VGram, as an example does, always throws (refuted). The file of a StreamVGram loads as IntStreamVGram, and throws as IntVGram and as VGram.", "quantifier": "every file for the first sentence; every history of an integer stream as in C51, every good fit as in C52 and C53, every text stream over such a history", "why_tests_cant": "the claim is about all files and all saved objects", "anchors": ["core/src/main/cpp/interfaces/loader.h:13-107", "core/src/main/cpp/interfaces/saver.h:15-39", "core/src/main/cpp/interfaces/vgram_builders/int_stream_vgram.cc:71-73", "binding/src/main/python/examples/int_vgram_examples.py:42-50"]}
{"id": "C88", "title": "Parsing finds the most probable division", "statement": "parse() of an integer stream, and transform() of a fitted or loaded IntVGram, divide the known symbols of a sequence into words of alphabet() so that no other division has a larger sum of logarithms of (freq + 1) / (sum of freqs() + number of words), taken in double. In exact numbers, if the logarithm is right up to 2^-46, no other division of m symbols is more probable by more than the factor exp(2m(2^-44 + m 2^-47)): for a thousand symbols, less than exp(10^-7).", "quantifier": "every normal, roomy and calm history of a new or loaded stream (as in C38), every good fit (as in C44), every sequence of at most 2^40 symbols that the alphabet covers, every other division of it; every implementation of log that is right up to 2^-46", "why_tests_cant": "the claim compares with exponentially many divisions, and bounds the accumulated rounding error for all of them", "anchors": ["core/src/main/cpp/interfaces/vgram_builders/int_stream_vgram.cc:32-48", "core/src/main/cpp/interfaces/vgram_builders/int_vgram.cc:102-116", "core/src/main/cpp/algorithm/int_dict_p.cc:69-100", "core/src/main/cpp/algorithm/int_dict_p.cc:130-137"]}
{"id": "C89", "title": "What a saved file says", "statement": "save() writes an object with exactly the members size (the size asked for), min_prob, coder, alphabet and, for a fitted VGram only, fitted and freqs_computed. For streams coder lists the symbols in the order in which they occur in the accepted data. The numbers in vec of a v-gram are positions in that list; read like this the v-grams are the words of alphabet(), in the same order, freq is what freqs() reports, and text, present for text objects only, is the word shown by alphabet(). After fit the symbols are listed in the order of the random draws instead.", "quantifier": "every history of a new stream, integer or text, characters or words, and every good fit (as in C44, C49), that ends in a successful save(); sizes, symbols and frequencies in int range; every way of printing the minimum probability that is valid JSON", "why_tests_cant": "the file is a contract with other programs, and the documentation describes it by one example; its members depend on the whole history", "anchors": ["docs/source/save.rst:1-45", "core/src/main/cpp/interfaces/saver.h:1-92", "core/src/main/cpp/interfaces/seq_coder.cc:17-28"]}
{"id": "C90", "title": "Text streams of characters survive saving and loading", "statement": "A text stream that divides texts into characters is trained with accept() and update() and used with parse(). When every character it has met up to some point is a word of its alphabet, it accepts no new characters after that, and frequencies are known for the whole alphabet, save() succeeds, and StreamVGram loaded from the file has the same alphabet(), freqs(), size and min_prob. Both then give the same answer to every parse(), in every series of calls, also for texts with characters neither of them knows; texts with such characters may also have been parsed before saving.", "quantifier": "every history of a new text stream of characters in which no text is parsed that has a character accepted earlier but not (yet) in the alphabet; ASCII texts; sizes and frequencies in int range; a minimum probability that is printed exactly; all later texts of at most 2^40 characters", "why_tests_cant": "the histories before saving and the texts parsed after loading are unbounded; unknown characters are numbered while parsing, differently in the two objects", "anchors": ["core/src/main/cpp/interfaces/saver.h:1-92", "core/src/main/cpp/interfaces/loader.h:1-100", "core/src/main/cpp/interfaces/vgram_builders/string_stream_vgram.cc:40-68", "core/src/main/cpp/interfaces/seq_coder.cc:17-28"]}
{"id": "C91", "title": "What has been divided stays divided", "statement": "Let parse() or transform() divide a sequence into words. Given any sequence that consists of the first few of these words (unknown symbols may be in between), the same object divides it into exactly these words. For texts: the pieces that parse() gives can be joined, with or without spaces or other marks and in upper or lower case, and are found again, and what transform() gives for a text is transformed into itself.", "quantifier": "every history of a stream, new or loaded, every fitted model, every text stream of characters and every fitted text model of characters, after any earlier transforms; sequences whose known symbols are in the alphabet, of at most 2^40 symbols; every number of first words; every arithmetic with the float laws, and doubles", "why_tests_cant": "the division depends on rounded sums of logarithms; that it does not depend on what follows holds for all sequences, alphabets and frequencies or for none that a test would notice", "anchors": ["core/src/main/cpp/algorithm/int_dict_p.cc:69-101", "core/src/main/cpp/interfaces/vgram_builders/int_stream_vgram.cc:30-60", "core/src/main/cpp/interfaces/vgram_builders/string_stream_vgram.cc:42-53", "core/src/main/cpp/interfaces/vgram_builders/string_vgram.cc:30-46"]}
{"id": "C92", "title": "Texts are divided into the most probable words", "statement": "parse() of a StreamVGram of characters and transform() of a fitted VGram divide what is known of a text (its normal form without characters that were never accepted) into words of alphabet() so that no other division has a larger sum of logarithms of smoothed frequencies, with the frequencies that freqs() reports at the same positions. In exact numbers no other division of the text is more probable than the one shown by more than the factor exp(2m(2^-44+m 2^-47)) for m characters.", "quantifier": "every history of a text stream of characters in which texts with known characters outside the alphabet are not parsed; every good fit on texts and every later series of transforms; every batch of ASCII texts of at most 2^40 characters; doubles with a logarithm right up to 2^-46 for the exact statement", "why_tests_cant": "the number of divisions of one text is exponential in its length, and texts, alphabets and histories are unbounded", "anchors": ["core/src/main/cpp/algorithm/int_dict_p.cc:69-101", "core/src/main/cpp/interfaces/vgram_builders/string_stream_vgram.cc:42-53", "core/src/main/cpp/interfaces/vgram_builders/string_vgram.cc:30-46", "core/src/main/cpp/interfaces/tokenizers/base_tokenizer.cc:30-60"]}
{"id": "C93", "title": "What a training prints", "statement": "With verbose at 0 or below, objects made by a constructor print nothing; with any verbose all calls do the same. With verbose above 0 accept() prints one line for the first, third, fifth, ... rebuild of the dictionary, with the number of words, the rate (C83) and the minimum probability of what is replaced, and the minimum probabilities shown never increase. fit() announces its rounds in order, each followed by the lines of the sequences accepted in it, and at last the recount; an interrupted fit stops within a round and does not announce the recount; a fitted object announces at most the recount. Loaded objects print as with verbose = 1.", "quantifier": "every verbose, every history of a stream, every fit on every data with every sequence of random numbers and every interruption, every environment of the updates", "why_tests_cant": "that output changes nothing and that nothing is printed is about all calls and states; rebuilds need long training, and their number is unbounded", "anchors": ["core/src/main/cpp/algorithm/int_vgram_builder_p.cc:66-118", "core/src/main/cpp/interfaces/vgram_builders/int_vgram.cc:28-80", "core/src/main/cpp/interfaces/vgram_builders/int_stream_vgram.cc:15-26", "core/src/main/cpp/interfaces/vgram_builders/int_stream_vgram.cc:83-97", "core/src/main/cpp/interfaces/vgram_builders/int_vgram.cc:119-133", "binding/src/main/cpp/bind_vgram.cc:19"]}
{"id": "C94", "title": "A tokenizer is deleted once and not used afterwards", "statement": "A StringVGram that is given a tokenizer by pointer takes it over. When every pointer is given to one object at most and not deleted by the caller as well, then in every program that makes, copies, uses and ends such objects nothing is used after it was deleted and nothing is deleted twice; a tokenizer is deleted exactly when the last object that has it, or a copy of that object, has ended. Otherwise the program runs into undefined behaviour, at the latest when the last of the objects ends. The loading functions of the Python classes keep to this. (This last sentence fails for IntStreamVGram.load and StreamVGram.load: they return a shared_ptr, but the classes are declared with the default holder, a unique_ptr, so that the object is deleted when load returns and the Python object refers to what is gone.)", "quantifier": "every program of these calls, of any length, with any number of objects, copies and pointers", "why_tests_cant": "lifetimes depend on the order in which objects end; use after delete often goes unnoticed in a test run", "anchors": ["core/src/main/cpp/interfaces/vgram_builders/string_vgram.h:22-28", "core/src/main/cpp/interfaces/vgram_builders/string_vgram.h:41-42", "core/src/main/cpp/interfaces/vgram_builders/string_vgram.cc:11-23", "core/src/main/cpp/interfaces/vgram_builders/string_vgram.cc:59-60", "core/src/main/cpp/interfaces/vgram_builders/string_stream_vgram.cc:14-36", "core/src/main/cpp/interfaces/loader.h:13-47", "binding/src/main/cpp/bind_vgram.cc:18-20", "binding/src/main/cpp/bind_vgram.cc:31-34", "binding/src/main/cpp/py_vgram_builder.h:16-18"]}
{"id": "C95", "title": "Case, punctuation and spaces do not matter", "statement": "Text objects treat texts alike that differ only in case, punctuation and spaces: in every state, accept(), parse(), fit() and transform() do the same with either, return the same and leave the same object. With characters as tokens this holds for ASCII texts with the same letters and digits up to case, and for no others. With words as tokens only one space at the end may be added; case and everything else make a difference, and it is a surprise that a second space between two words becomes part of the next word, so that the word is not recognized.", "quantifier": "every text object in every state, every series of calls, every pair of series whose texts agree in this way", "why_tests_cant": "all texts and states; that nothing else is overlooked is a statement about all pairs of texts", "anchors": ["core/src/main/cpp/interfaces/tokenizers/char_tokenizer.cc:16-38", "core/src/main/cpp/interfaces/tokenizers/word_tokenizer.cc:14-33", "core/src/main/cpp/interfaces/tokenizers/base_tokenizer.cc:30-42", "core/src/main/cpp/interfaces/vgram_builders/string_vgram.cc:25-45", "core/src/main/cpp/interfaces/vgram_builders/string_stream_vgram.cc:38-52"]}
{"id": "C96", "title": "Custom tokenizers keep the text", "statement": "With a tokenizer of the user's own (a class derived from BaseTokenizer that implements normalize and tokenize) the text objects work as with the built-in ones: after an update parse() returns words of the alphabet that spell the tokens of the text which occur in an accepted text, for whatever tokenizer; after a fit that runs well transform() turns each text into words of the alphabet separated by single spaces which spell its known tokens, provided that no training text has an empty token. Only the tokens of a text count. The tokenizer that the README gives as an example, s.split(' '), makes empty tokens of doubled spaces; then the words returned are not separated by single spaces and different texts are turned into the same one.", "quantifier": "every pair of functions normalize and tokenize, which may fail; every history of a stream within the limits of C37, counted in tokens; every good fit and every later series of transforms", "why_tests_cant": "the user's functions are arbitrary; a test fixes one tokenizer", "anchors": ["core/src/main/cpp/interfaces/tokenizers/base_tokenizer.h:31-33", "core/src/main/cpp/interfaces/tokenizers/base_tokenizer.cc:21-46", "core/src/main/cpp/interfaces/vgram_builders/string_vgram.cc:17-45", "core/src/main/cpp/interfaces/vgram_builders/string_stream_vgram.cc:30-52", "README.md:57-82"]}
{"id": "C97", "title": "A failed save is noticed", "statement": "After save() has returned, load() of the same name gives the model that was saved; when the file cannot be written, save() reports it. It does not: whatever becomes of the file (not opened, disk full, process killed), save() returns or throws exactly as if all had been written. What holds instead is that no mixture is ever loaded: under each name, what load() gives is decided by the last save that opened the file, in any series of saves under any names; if that save was complete it is the model saved, if any part but the last newline is missing or the save threw, every load function throws; saves that could not open the file leave the older model there, which is then loaded in place of the newer one.", "quantifier": "every series of saves of any objects under any names, every way in which each of them may fail, every load function", "why_tests_cant": "tests do not make the disk fail at every byte, and the claim is about all series of saves", "anchors": ["core/src/main/cpp/interfaces/saver.h:15-47", "core/src/main/cpp/interfaces/loader.h:73-79"]}
{"id": "C98", "title": "Copies of an object are independent", "statement": "A C++ program may copy IntStreamVGram and IntVGram objects (pass by value, vectors of them, assignment) and use the copies separately. They are not independent: the members builder_, coder_ and dict_ are shared pointers, so all copies are trained together, and an object that never accepted anything has after update_dict() the words its copy accepted. What holds: whatever is done with an object and its copies, in any order, each of them parses without loss (of the symbols that any of them has accepted), its words come from what they accepted, each can be trained and updated, the frequencies of an object are not changed by what is done with the others, its words keep their numbers (symbols may be added to its alphabet), and whichever is updated gets the same words.", "quantifier": "every series of copying, assigning, fit, transform, accept, update and parse on any number of objects that are copies of each other", "why_tests_cant": "the sharing is between objects that look separate; tests never copy an object", "anchors": ["core/src/main/cpp/interfaces/vgram_builders/int_stream_vgram.h:21-55", "core/src/main/cpp/interfaces/vgram_builders/int_vgram.h:17-43"]}
{"id": "C99", "title": "A loaded object can be used like the one that was saved, in any order of calls", "statement": "An IntVGram loaded from a model file can be used in any order: fit (completed or interrupted), transform, accept, update and parse. After all such calls parse is defined and spells the sequence without the symbols that are neither in the file nor accepted since the load; the alphabet is defined, and each of its words is a word of the file or a contiguous piece of a sequence accepted since. While the symbols are at most as many as the words of the file, accept is always defined, and so is update. Nothing but fit and an update that takes over another dictionary changes freqs(); an object loaded as fitted and counted stays so, and its fit does nothing. But an update that takes over another dictionary appends to the frequencies that were loaded or counted, so freqs() does not match alphabet() any more (one frequency per word is refuted).", "quantifier": "every well-formed model file, with each value of its two flags, and every sequence of calls of fit, transform, accept, update and parse on the loaded object, with all answers of rand() and isTerminated() and all environments, provided the data that fit counts has only symbols of the file or accepted ones; lengths up to the stated bounds", "why_tests_cant": "arbitrary files and arbitrary interleavings of calls; a test fixes one file and one order", "anchors": ["core/src/main/cpp/interfaces/vgram_builders/int_vgram.cc:28-80 (fit, recompute_freqs)", "core/src/main/cpp/interfaces/vgram_builders/int_vgram.cc:102-113 (transform)", "core/src/main/cpp/interfaces/vgram_builders/int_vgram.cc:119-133 (the constructor of loaded objects)", "core/src/main/cpp/interfaces/vgram_builders/int_stream_vgram.cc:28-57 (accept, parse, update_dict)"]}
