{"id": "C01", "title": "Exact vocabulary search is the vocabulary", "statement": "Searching the tokenizer's index for a string returns the id under which exactly that string was listed in the vocabulary, and the 'not found' id for every string that is not listed (including the empty string).", "quantifier": "every vocabulary with pairwise distinct non-empty entries (any size, any length) and every query string", "why_tests_cant": "A test looks up a few strings of one vocabulary; shared prefixes between arbitrary entries can corrupt an unrelated entry.", "anchors": ["berts/models/trie.cpp: add_str, find_node, build_trie, search_trie"]}
{"id": "C02", "title": "Greedy search returns the id of the longest matching entry", "statement": "A greedy prefix search returns the id of the longest vocabulary entry that is a prefix of the query, and 'not found' exactly when no entry is a prefix.", "quantifier": "every vocabulary of distinct non-empty entries and every query", "why_tests_cant": "Only a proof covers every pair of nested entries and every query that diverges after some of them.", "anchors": ["berts/models/trie.cpp: find_substr, search_trie_substr"]}
{"id": "C03", "title": "Greedy search splits the query without losing text", "statement": "When a greedy prefix search succeeds, the reported matched part followed by the reported remainder is exactly the query, and the reported matched part has the returned entry as a prefix.", "quantifier": "every vocabulary and every query on which the search succeeds", "why_tests_cant": "Needs an argument over all paths of all tries.", "anchors": ["berts/models/trie.cpp: find_substr, search_trie_substr"]}
{"id": "C04", "title": "The reported matched part is the entry whose id is returned", "statement": "When a greedy prefix search succeeds, the reported matched part is exactly the vocabulary entry with the returned id (as the header documents: 'bert_token_id of found').", "quantifier": "every vocabulary and every query on which the search succeeds", "why_tests_cant": "A vocabulary with a dead-end path (a longer entry shares the query's next characters but diverges later) is needed; the shipped tests use none.", "anchors": ["berts/models/trie.hpp: search_trie_substr", "berts/models/trie.cpp: find_substr"]}
{"id": "C05", "title": "WordPiece is greedy longest-match-first", "statement": "For a list of words whose greedy segmentation never runs into a dead end, BERT's subword stage outputs for each word exactly the ids of the greedy longest-match-first segmentation, where continuation pieces are looked up with the ## prefix.", "quantifier": "every vocabulary, every list of words that segments completely without dead ends", "why_tests_cant": "A test fixes one vocabulary and a few words.", "anchors": ["berts/models/bert.cpp: wordpiece_tokenize"]}
{"id": "C06", "title": "Words are tokenized independently of their neighbours", "statement": "The ids produced for a word do not depend on which words stand before it in the text.", "quantifier": "every vocabulary and every pair of word lists", "why_tests_cant": "The failure needs a word that becomes unknown after its first piece, followed by another word; tests use only known words.", "anchors": ["berts/models/bert.cpp: wordpiece_tokenize"]}
{"id": "C07", "title": "Subword stage terminates and emits only vocabulary ids", "statement": "The subword stage always terminates, and every id it emits is the id of a vocabulary entry or the unknown-token id; a word yields at most as many ids as it has UTF-16 units.", "quantifier": "every vocabulary, every list of words", "why_tests_cant": "Termination and range claims quantify over all inputs.", "anchors": ["berts/models/bert.cpp: wordpiece_tokenize"]}
{"id": "C08", "title": "Text cleaning and word splitting keep exactly the visible characters in order", "statement": "BERT's cleaning stage outputs a list of non-empty words without separators; their concatenation is exactly the input's code points that are neither removed nor whitespace, in order; two adjacent kept characters stay in one word iff no whitespace and no CJK boundary lies between them.", "quantifier": "every sequence of code points, every setting of the cleaning flags, every character classification, whenever no kept special character lies above U+FFFF", "why_tests_cant": "Depends on every combination of flags and every text.", "anchors": ["berts/models/bert.cpp: clean_text_and_split"]}
{"id": "C09", "title": "Characters kept by cleaning are not altered", "statement": "With control-character removal switched off, every control-class character of the text survives cleaning unchanged.", "quantifier": "every text and every cleaning configuration that keeps control characters", "why_tests_cant": "Only supplementary-plane private-use or unassigned characters expose the narrowing.", "anchors": ["berts/models/bert.cpp: clean_text_and_split (cleaned.push_back(c))", "berts/models/unicode.hpp: ustr::cp"]}
{"id": "C10", "title": "Punctuation splitting partitions the word", "statement": "Splitting a word at punctuation yields non-empty pieces whose concatenation is the word, every punctuation character is a piece of its own, every other piece is a maximal punctuation-free run.", "quantifier": "every word of well-formed text, every punctuation predicate", "why_tests_cant": "A test checks some punctuation marks in some places.", "anchors": ["berts/models/bert.cpp: basic_tokenize"]}
{"id": "C11", "title": "Lower-casing keeps the text", "statement": "For a model configured with do_lower_case (the default), tokenizing a text yields the tokens of its lower-cased words.", "quantifier": "every text with at least one ordinary word and every case mapping", "why_tests_cant": "The repository's tests only load cased models, so the lower-casing path is never run.", "anchors": ["berts/models/unicode.cpp: to_lower, to_upper", "berts/models/bert.cpp: basic_tokenize, vocab::init (do_lower_case default true)"]}
{"id": "C12", "title": "BERT token sequences are bracketed and in range", "statement": "Tokenizing any valid UTF-8 text with a loaded BERT vocabulary succeeds and yields the classification id, then ids that are each below the vocabulary size or equal to the unknown id, then the separator id.", "quantifier": "every vocabulary, configuration and valid UTF-8 text", "why_tests_cant": "Quantifies over all texts.", "anchors": ["berts/models/bert.cpp: tokenize, model::tokenize", "berts/berts.cpp: berts_tokenize"]}
{"id": "C13", "title": "Tokenize buffer contract", "statement": "berts_tokenize never writes beyond the capacity passed in, stores the full token count in *out_len whatever the capacity, writes exactly the first min(capacity, count) tokens, and on failure leaves both the buffer and *out_len untouched; so a size query followed by a call with that size yields the complete sequence.", "quantifier": "every text, every tokenizer result, every capacity (including 0 and null buffer)", "why_tests_cant": "A test tries a few capacities.", "anchors": ["berts/berts.cpp: berts_tokenize"]}
{"id": "C14", "title": "id-to-token buffer contract", "statement": "berts_id_to_token never writes beyond the capacity, writes exactly the first min(capacity, size) bytes of the token, always reports the full size, and returns true iff the id names a non-empty token.", "quantifier": "every vocabulary, id, and capacity", "why_tests_cant": "All capacities and ids.", "anchors": ["berts/berts.cpp: berts_id_to_token"]}
{"id": "C15", "title": "Lookup with no model reports 'invalid id'", "statement": "Every id-returning query on a missing model returns BERTS_INVALID_TOKEN_ID.", "quantifier": "every id-returning API function and every argument", "why_tests_cant": "The repository has no test that passes a null context.", "anchors": ["berts/berts.cpp: berts_token_to_id, berts_cls_id, berts_mask_id, berts_pad_id, berts_sep_id, berts_unk_id, berts_bos_id, berts_eos_id"]}
{"id": "C16", "title": "Vocabulary written by the converter is read back exactly", "statement": "For every list of distinct tokens of 1 to 256 bytes, the length/data tensors written by the converter are accepted by the loader, which then maps every id to its token and every token to its id.", "quantifier": "every list of distinct byte strings of length 1..256", "why_tests_cant": "Includes the length-256-stored-as-0 wrap-around and arbitrary list lengths.", "anchors": ["berts/models/model_base.hpp: init_vocab, vocab_base2", "berts/models/convert_hf_to_gguf.py: write_vocab"]}
{"id": "C17", "title": "A loaded vocabulary is a bijection", "statement": "Whenever vocabulary loading succeeds, ids are exactly 0..n-1, id-to-token followed by token-to-id is the identity on them, token-to-id followed by id-to-token is the identity on known tokens, unknown ids give the empty string and unknown tokens the invalid id; files with a repeated token are rejected.", "quantifier": "every pair of length/data tensors", "why_tests_cant": "All files, not just well-formed ones.", "anchors": ["berts/models/model_base.hpp: vocab_base2::add_token, id_to_token, token_to_id, init_vocab"]}
{"id": "C18", "title": "Vocabulary loading stays inside the file's data", "statement": "Loading a vocabulary never reads outside the vocabulary data tensor; a file whose lengths do not add up to the data size is rejected.", "quantifier": "every pair of length/data tensors", "why_tests_cant": "Only corrupted files show it and an out-of-bounds read may go unnoticed in a test.", "anchors": ["berts/models/model_base.hpp: init_vocab"]}
{"id": "C19", "title": "Special ids come from the file, else from the vocabulary", "statement": "A special token's id is the id stored in the model file if there is one, otherwise the id of the first of its conventional spellings present in the vocabulary; loading fails when neither exists (for RoBERTa after the bos/cls and eos/sep fall-backs).", "quantifier": "every key/value set and vocabulary", "why_tests_cant": "Finite but large decision table over arbitrary vocabularies.", "anchors": ["berts/models/model_base.hpp: get_token_id", "berts/models/bert.cpp: vocab::init", "berts/models/roberta.cpp: vocab::init"]}
{"id": "C20", "title": "Special ids name vocabulary entries", "statement": "After a successful load every special id is a valid index into the vocabulary.", "quantifier": "every model file that loads", "why_tests_cant": "Only a file with a stored out-of-range id shows it.", "anchors": ["berts/models/model_base.hpp: get_token_id", "berts/models/bert.cpp: vocab::init", "berts/models/roberta.cpp: vocab::init"]}
{"id": "C21", "title": "Code point iteration inverts UTF-16 encoding", "statement": "Iterating over the code points of a string built from Unicode scalar values yields those values; on arbitrary 16-bit data every lone surrogate is reported as U+FFFD (or skipped), every well-formed pair as its scalar value, nothing else is dropped or invented.", "quantifier": "every sequence of 16-bit units", "why_tests_cant": "All interleavings of surrogates.", "anchors": ["berts/models/unicode.hpp: ustr::each, ustr::each_cp"]}
{"id": "C22", "title": "String comparison is a total order consistent with equality", "statement": "operator== holds iff the contents are equal; operator<=> is the lexicographic order: reflexive, antisymmetric, transitive, total, equal iff ==; equal strings have equal hash; + and += (also with itself) concatenate.", "quantifier": "all strings", "why_tests_cant": "Algebraic laws over all pairs and triples.", "anchors": ["berts/models/unicode.cpp: operator==, operator<=>, operator+, operator+=", "berts/models/unicode.hpp: hash<ustr>"]}
{"id": "C23", "title": "starts_with / ends_with test prefix and suffix", "statement": "s.starts_with(p) holds iff p is a prefix of s, and s.ends_with(p) iff p is a suffix of s.", "quantifier": "all pairs of strings", "why_tests_cant": "Short ASCII test strings that differ early do not reveal that only half of the prefix is compared.", "anchors": ["berts/models/unicode.cpp: ustr::starts_with, ustr::ends_with"]}
{"id": "C24", "title": "lstrip / rstrip remove exactly the outer whitespace", "statement": "On well-formed strings lstrip (rstrip) returns the unique suffix (prefix) that remains after dropping the maximal leading (trailing) whitespace run; both are idempotent and commute.", "quantifier": "every well-formed string and every whitespace predicate", "why_tests_cant": "All strings.", "anchors": ["berts/models/unicode.cpp: ustr::lstrip, ustr::rstrip"]}
{"id": "C25", "title": "Regex splitting partitions the text", "statement": "The pieces returned by regex split concatenate to the input text, no gap piece is empty, and every match appears as a piece; the returned count is the number of pieces appended.", "quantifier": "every text and every engine that reports increasing non-overlapping matches within the text", "why_tests_cant": "Quantifies over regexes and texts.", "anchors": ["berts/models/unicode.cpp: regex::split"]}
{"id": "C26", "title": "The byte alphabet is GPT-2's and unambiguous", "statement": "The byte-to-character table used by RoBERTa is GPT-2's byte alphabet; it is injective and never maps to a surrogate, a space or a control character, so distinct byte strings have distinct spellings.", "quantifier": "all bytes, all byte strings", "why_tests_cant": "All pairs of byte strings.", "anchors": ["berts/models/roberta.cpp: byte_encoder"]}
{"id": "C27", "title": "id-to-token inverts token-to-id for RoBERTa", "statement": "For every byte string that is (after byte encoding) a vocabulary entry, looking up its id and converting the id back yields the same byte string.", "quantifier": "every vocabulary and byte string", "why_tests_cant": "Only bytes 0x7f..0xa0 and 0xad fail; ASCII tests pass.", "anchors": ["berts/models/roberta.cpp: vocab::id_to_token, vocab::token_to_id"]}
{"id": "C28", "title": "RoBERTa accepts every UTF-8 text", "statement": "berts_tokenize and berts_token_to_id have defined behaviour on every UTF-8 text.", "quantifier": "every text", "why_tests_cant": "Reading outside a static table is undefined behaviour that usually does not crash in a test; tests are ASCII only.", "anchors": ["berts/models/roberta.cpp: tokenize, vocab::token_to_id (byte_encoder[c] with signed char)"]}
{"id": "C29", "title": "Special-token splitting preserves the text", "statement": "Splitting a RoBERTa text at special tokens yields parts that concatenate to the text, ordinary parts are non-empty, two ordinary parts are never adjacent, and every special part is one of the special tokens.", "quantifier": "every text, every set of non-empty special tokens, every iteration order of the set", "why_tests_cant": "The iteration order of an unordered_set is unspecified; a test sees one.", "anchors": ["berts/models/roberta.cpp: tokenize"]}
{"id": "C30", "title": "Special-token splitting does not depend on set iteration order", "statement": "The split is the same for every iteration order of the special-token set.", "quantifier": "every text, every permutation of the special tokens", "why_tests_cant": "A test sees one order of one standard library.", "anchors": ["berts/models/roberta.cpp: tokenize (std::unordered_set iteration)"]}
{"id": "C31", "title": "RoBERTa tokenization terminates", "statement": "berts_tokenize returns for every text and every loaded RoBERTa model.", "quantifier": "every text and every model file that loads", "why_tests_cant": "Non-termination needs a file whose stored special id is out of range.", "anchors": ["berts/models/roberta.cpp: tokenize, model::tokenize"]}
{"id": "C32", "title": "RoBERTa tokenization is lossless on 7-bit text", "statement": "If every single-byte symbol is in the vocabulary, the concatenation of id-to-token over the ids between the brackets gives back the text, apart from whitespace directly before the mask token, for texts of bytes below 0x7f.", "quantifier": "every vocabulary with the byte symbols, every merge table, every text of bytes < 0x7f, every regex engine that partitions the text", "why_tests_cant": "Composes special splitting, regex splitting, byte encoding, BPE and decoding over all texts.", "anchors": ["berts/models/roberta.cpp: tokenize, id_to_token", "berts/models/bpe.cpp: tokenize_bpe"]}
{"id": "C33", "title": "BPE merging terminates and stays in bounds", "statement": "Tokenizing any word terminates and never accesses a symbol outside the word, whatever the merge table and whatever the random dropout decisions are.", "quantifier": "every merge table, every word, every sequence of random decisions", "why_tests_cant": "Quantifies over all random outcomes.", "anchors": ["berts/models/bpe.cpp: merge_all"]}
{"id": "C34", "title": "BPE is lossless", "statement": "If every character of the text is in the vocabulary (and no subword prefix/suffix is configured), the produced tokens concatenate to the text, for every dropout outcome.", "quantifier": "every vocabulary and merge table that loads, every text, every sequence of random decisions", "why_tests_cant": "All texts, all vocabularies, all random outcomes.", "anchors": ["berts/models/bpe.cpp: tokenize_bpe, merge_word, merge_all, word_to_tokens, load_vocab"]}
{"id": "C35", "title": "The priority-queue merge equals canonical BPE", "statement": "With dropout 0 the result is the one of the textbook algorithm: repeatedly merge the adjacent pair of lowest rank, leftmost first, until no pair can be merged; it does not depend on how the queue breaks ties. Condition: the unknown token is absent, or longer than the configured subword prefix (always true without a prefix); see C78.", "quantifier": "every vocabulary (distinct tokens and ids) and merge list that loads, every word, every priority queue", "why_tests_cant": "Stale queue entries appear only for particular rank orders; all merge tables and words.", "anchors": ["berts/models/bpe.cpp: merge_all, merge_word, bpe::load_vocab"]}
{"id": "C36", "title": "Every dropout outcome is a legal segmentation; dropout 1 merges nothing", "statement": "For every sequence of random decisions the result is reachable from the single characters by merges of the table; if every decision is 'skip', no merge happens.", "quantifier": "every merge table, word and sequence of random decisions", "why_tests_cant": "All random outcomes.", "anchors": ["berts/models/bpe.cpp: merge_all"]}
{"id": "C37", "title": "The BPE cache is invisible", "statement": "Starting with an empty cache, any sequence of cached tokenize calls returns the same results as uncached calls; with dropout enabled the cache is neither read nor written.", "quantifier": "every sequence of calls (history)", "why_tests_cant": "Quantifies over call histories.", "anchors": ["berts/models/bpe.cpp: tokenize_bpe"]}
{"id": "C38", "title": "Unknown characters become unknown tokens", "statement": "Characters missing from the vocabulary produce the unknown token; with fusing a maximal run of them produces one (if the text does not contain the unknown token itself as a character), without fusing one each; nothing is emitted when the unknown token itself is empty or not in the vocabulary. Merging starts from these tokens.", "quantifier": "every vocabulary, merge list and text", "why_tests_cant": "All texts and vocabularies.", "anchors": ["berts/models/bpe.cpp: merge_word"]}
{"id": "C39", "title": "Loading merges: ranks are positions, inconsistent tables are rejected", "statement": "Loading succeeds exactly when both halves and the concatenation of each merge are in the vocabulary; the rank of a pair is the position of its last occurrence (after the existing ones); a failed load is reported.", "quantifier": "every vocabulary and merge list", "why_tests_cant": "All lists.", "anchors": ["berts/models/bpe.cpp: load_vocab"]}
{"id": "C40", "title": "clear() empties the BPE model", "statement": "After clear() the model behaves like a newly constructed one.", "quantifier": "every sequence of load/clear operations", "why_tests_cant": "Needs a history: load, clear, load something else, query an old id.", "anchors": ["berts/models/bpe.cpp: bpe::clear, bpe::id_to_token"]}
{"id": "C41", "title": "berts_eval validates its request", "statement": "Given an output buffer and an output layer other than INT64_MIN: a request with too many tokens, a wrong number of segments, a segment out of range, an unknown pooling type or a layer outside -n..n returns false and writes no output value, as does a call with a null context, settings or count pointer or without model; a request that keeps these rules and has at least one token, existing token ids and positions, sufficient 64-bit arena size and node budget succeeds.", "quantifier": "every request and every model size, arithmetic and library constants", "why_tests_cant": "All combinations of boundary values.", "anchors": ["berts/models/model_berts.hpp: eval", "berts/berts.cpp: berts_eval"]}
{"id": "C42", "title": "Output layer numbering", "statement": "An output layer -k (1<=k<=n) makes berts_eval behave exactly as n+1-k does; a layer number names at most one layer, between 0 and n, negative numbers never layer 0; accepted non-negative values name themselves.", "quantifier": "every layer count, requested layer and request", "why_tests_cant": "All pairs.", "anchors": ["berts/models/model_berts.hpp: eval", "berts/berts.cpp: berts_eval"]}
{"id": "C43", "title": "berts_eval buffer contract", "statement": "A successful evaluation writes exactly min(capacity, needed) values and reports needed in *out_count, with needed = hidden_dim * tokens without pooling and hidden_dim otherwise; a dry run (null buffer) reports the same number; so dry run + exact buffer gives the whole output.", "quantifier": "every request", "why_tests_cant": "All capacities and sizes.", "anchors": ["berts/models/model_berts.hpp: eval"]}
{"id": "C44", "title": "A successful dry run predicts success", "statement": "If a dry run of a request succeeds then the same request with a buffer of the reported size is not rejected by validation.", "quantifier": "every request", "why_tests_cant": "Needs a request with an invalid output layer; tests use valid ones.", "anchors": ["berts/models/model_berts.hpp: eval"]}
{"id": "C45", "title": "Embedding look-ups stay inside the tables (BERT)", "statement": "For every request that BERT evaluation accepts, every word, segment and position embedding look-up addresses an existing row.", "quantifier": "every accepted request", "why_tests_cant": "Out-of-range ids come from arbitrary callers.", "anchors": ["berts/models/bert.cpp: model::build_graph", "berts/models/model_berts.hpp: eval"]}
{"id": "C46", "title": "RoBERTa position ids", "statement": "Padding tokens get position 0, the k-th non-padding token gets position pad+k; positions of non-padding tokens are strictly increasing.", "quantifier": "every token sequence", "why_tests_cant": "All interleavings of padding.", "anchors": ["berts/models/roberta.cpp: model::build_graph"]}
{"id": "C47", "title": "RoBERTa position look-ups stay inside the table", "statement": "For every request that RoBERTa evaluation accepts, every position id is below the number of rows of the position table (max_tokens rows, as the converter writes).", "quantifier": "every accepted request", "why_tests_cant": "Only near-maximal lengths overflow.", "anchors": ["berts/models/roberta.cpp: model::build_graph", "berts/models/model_berts.hpp: eval", "berts/models/convert_hf_to_gguf.py: convert_roberta"]}
{"id": "C48", "title": "Encoder memory estimate is exact", "statement": "The arena size computed before evaluation is exactly what building the graph allocates plus the graph object, for every model size, token count, layer and pooling whose unreduced sum fits 64 bits, so evaluation never runs out of arena memory.", "quantifier": "every hyper-parameter set with heads dividing the hidden size, token count, output layer and pooling type", "why_tests_cant": "Unbounded sizes.", "anchors": ["berts/models/bert.cpp: get_context_buffer_size, build_graph", "berts/models/roberta.cpp"]}
{"id": "C49", "title": "LM head memory estimate is exact", "statement": "The arena size computed before language-model evaluation is exactly what building the LM graph allocates plus the graph object.", "quantifier": "every hyper-parameter set, token count and vocabulary size", "why_tests_cant": "Unbounded sizes.", "anchors": ["berts/models/bert.cpp: get_context_buffer_size_for_lm, build_lm_graph"]}
{"id": "C50", "title": "The encoder graph is shape-correct", "statement": "When the head count divides the hidden size and the weights have the declared shapes, every tensor operation of the encoder graph meets the tensor library's shape preconditions, for every token count, layer and pooling, and the output tensor has exactly the reported number of elements.", "quantifier": "every hyper-parameter set with heads dividing hidden size, every token count >= 1, layer, pooling", "why_tests_cant": "Unbounded sizes.", "anchors": ["berts/models/bert.cpp: build_graph", "berts/models/roberta.cpp: build_graph", "berts/models/ggml.hpp: bert_dense, bert_layer_norm"]}
{"id": "C51", "title": "LM evaluation shape contract", "statement": "berts_eval_lm accepts exactly hidden-state buffers whose length is a multiple of the hidden size, reports tokens * (min(top_k, vocabulary) or vocabulary) as output count, and with both output pointers null only reports.", "quantifier": "every request", "why_tests_cant": "All sizes.", "anchors": ["berts/models/model_berts.hpp: eval_lm"]}
{"id": "C52", "title": "Top-k output is the k most probable tokens with their probabilities", "statement": "For 1 <= top_k <= vocabulary and large enough buffers, for each input position the output lists k distinct ids in order of decreasing probability, none of the remaining ids is more probable, and each probability is the one of the id at the same index.", "quantifier": "every probability table, token count and top_k", "why_tests_cant": "All tables.", "anchors": ["berts/models/model_berts.hpp: eval_lm", "berts/models/bert.cpp: build_lm_graph"]}
{"id": "C53", "title": "LM evaluation respects the output buffers", "statement": "berts_eval_lm never writes outside the buffers of the capacity passed by the caller and never reads outside its own tables.", "quantifier": "every request", "why_tests_cant": "Overrun needs a buffer smaller than needed or top_k above the vocabulary size.", "anchors": ["berts/models/model_berts.hpp: eval_lm (top_k branch)"]}
{"id": "C54", "title": "Without top_k every id comes with its own probability", "statement": "For top_k <= 0 the i-th probability of a position is the probability of the i-th id of that position.", "quantifier": "every probability table", "why_tests_cant": "Tests only use top_k > 0.", "anchors": ["berts/models/model_berts.hpp: eval_lm (top_k <= 0 branch)"]}
{"id": "C55", "title": "Loader memory estimate covers all tensors", "statement": "The arena size computed by the loader is enough for every tensor of the file, so creating and reading the tensors is never undefined; when every row is made of whole blocks it is exact to the byte.", "quantifier": "every tensor list with names of less than 64 bytes, every library constants that satisfy the alignment conditions", "why_tests_cant": "Unbounded number and sizes of tensors.", "anchors": ["berts/models/gguf.cpp: init_gg"]}
{"id": "C56", "title": "Loading outcome table", "statement": "A file is loaded iff all required settings are present with the right types, the file type has a name, the activation is GELU, the architecture BERT or RoBERTa, the tensors can be read, the vocabulary initialises and all required weights are there; an unsupported activation or architecture gives null; a missing or wrongly typed setting stops the process.", "quantifier": "every key/value set, tensor list and file contents", "why_tests_cant": "Decision table over unbounded inputs.", "anchors": ["berts/models/gguf.cpp: load_from_file"]}
{"id": "C57", "title": "Weights: all required tensors or nothing", "statement": "A model is created only if the file has each of the 7 + 16 * layers required tensors; the six LM tensors are optional.", "quantifier": "every tensor name set and layer count", "why_tests_cant": "Unbounded layer count.", "anchors": ["berts/models/bert.cpp: weights::init"]}
{"id": "C58", "title": "Scoped resources are released exactly once", "statement": "Under any sequence of create, move, release and dispose operations on the library's scoped handles no resource is freed twice, none is used after being freed, and all but released ones are freed at the end.", "quantifier": "every operation sequence", "why_tests_cant": "Histories.", "anchors": ["berts/models/utils.hpp: unique_ctx, gg_ctx"]}
{"id": "C59", "title": "berts_free releases everything the context owns", "statement": "After berts_free (and after a failed load) no file or tensor context created by loading stays allocated.", "quantifier": "every load/free history", "why_tests_cant": "Leaks do not fail tests.", "anchors": ["berts/models/internal.cpp: new_context, free_context", "berts/models/gguf.cpp: load_from_file"]}
{"id": "C60", "title": "Log levels filter monotonically", "statement": "A message is written iff its severity is at least the configured level; raising the level only removes messages; at the quiet level nothing is written.", "quantifier": "every configured level, message severity and history of level changes", "why_tests_cant": "All combinations over histories.", "anchors": ["berts/models/log.hpp", "berts/models/log.cpp"]}
{"id": "C61", "title": "Errors are visible at the default level", "statement": "An error reported by the library is written to the log at every level up to BERTS_LOG_ERROR.", "quantifier": "every error message and level", "why_tests_cant": "Tests do not capture the log.", "anchors": ["berts/models/log.hpp: error(fmt, args...)"]}
{"id": "C62", "title": "Logging user text is safe", "statement": "Writing a log message has defined behaviour for every message text.", "quantifier": "every message, including texts taken from user input", "why_tests_cant": "Needs a text containing a conversion specification.", "anchors": ["berts/models/log.cpp: write"]}
{"id": "C63", "title": "Quantization selects exactly the 2-D weights", "statement": "When the model loads, exactly the two-dimensional tensors whose name is a text without line breaks followed by 'weight' are converted to the target type (a model with such a tensor that is neither F32 nor F16 is refused); every other tensor is copied byte for byte; names, shapes, order and number of tensors are unchanged.", "quantifier": "every model file that loads, also files in which a name occurs twice", "why_tests_cant": "All tensor lists.", "anchors": ["berts/models/quantize.cpp: berts_model_quantize, quantize"]}
{"id": "C64", "title": "Quantized file layout is self-consistent", "statement": "In the written file every tensor's data lies at the offset recorded in the metadata, offsets are aligned, regions do not overlap, and reading the file back gives each tensor the data that was written for it.", "quantifier": "every list of tensors and sizes, every alignment setting of the source", "why_tests_cant": "All sizes and alignments.", "anchors": ["berts/models/quantize.cpp: berts_model_quantize"]}
{"id": "C65", "title": "An interrupted quantization never looks like a valid model", "statement": "If the process stops at any point before the final metadata write, or gives up, the output file does not start with the model file magic.", "quantifier": "every crash point, every history of write failures", "why_tests_cant": "Crash points.", "anchors": ["berts/models/quantize.cpp: berts_model_quantize"]}
{"id": "C66", "title": "A reported success means a complete file", "statement": "If berts_model_quantize returns true, the output file contains all data.", "quantifier": "every history of write failures", "why_tests_cant": "Disk-full histories.", "anchors": ["berts/models/quantize.cpp: berts_model_quantize"]}
{"id": "C67", "title": "Quantizer command line", "statement": "The quantization tool accepts exactly the documented type names (in any case) or numbers, runs with the type the user named, and exits with a failure status when quantization fails; its behaviour is defined for every argument.", "quantifier": "every argument string", "why_tests_cant": "All strings.", "anchors": ["berts/examples/quant.cpp: parse_ftype, ftype_to_str, main"]}
{"id": "C68", "title": "The converter writes each token once", "statement": "For every tokenizer vocabulary with distinct tokens of 1 to 256 bytes and distinct ids below the model's vocabulary size, the token list written by the converter has one entry per id and no duplicates, real tokens keep their ids, filler names never collide with real tokens, and the loader accepts the file; ids that clash or do not fit stop the converter.", "quantifier": "every token map and vocabulary size", "why_tests_cant": "Collisions between filler tokens and real tokens.", "anchors": ["berts/models/convert_hf_to_gguf.py: write_vocab"]}
{"id": "C69", "title": "Merge table survives conversion", "statement": "The merges written by the converter are read back by the loader in the same order with the same ids; the converter accepts exactly the merges over known tokens with ids and ranks below 2^31; the loader accepts exactly the one-dimensional int32 tensors of triples.", "quantifier": "every vocabulary, merge list and tensor", "why_tests_cant": "All lists.", "anchors": ["berts/models/convert_hf_to_gguf.py: write_merge", "berts/models/roberta.cpp: vocab::init"]}
{"id": "C70", "title": "fill_mask stays inside its buffers", "statement": "The fill_mask tool never reads outside the memory it allocated: the token buffer it sizes by the bytes of the prompt holds every token it then reads, and so do the buffers for hidden states, ids, scores and token texts.", "quantifier": "every prompt, k and model", "why_tests_cant": "Needs a text that yields more tokens than bytes.", "anchors": ["berts/examples/fill_mask.cpp: main"]}
{"id": "C71", "title": "WordPiece follows greedy longest-match for every segmentable word", "statement": "Whenever a word can be segmented completely by greedy longest-match-first, the subword stage outputs exactly that segmentation.", "quantifier": "every vocabulary and every word", "why_tests_cant": "Needs a vocabulary with an entry that shares more than the longest match with the word and then diverges.", "anchors": ["berts/models/trie.cpp: find_substr", "berts/models/bert.cpp: wordpiece_tokenize"]}
{"id": "C72", "title": "A word that cannot be segmented becomes one unknown token", "statement": "If greedy segmentation of a word fails, the word contributes exactly one unknown token (as in the reference WordPiece tokenizer).", "quantifier": "every vocabulary and word", "why_tests_cant": "Needs a word whose beginning is known but whose rest is not.", "anchors": ["berts/models/bert.cpp: wordpiece_tokenize"]}
{"id": "C73", "title": "String objects behave like independent values", "statement": "In every program of constructions, copies, moves, assignments (also self-assignment), concatenations and comparisons, string objects behave like independent variables holding sequences of 16-bit units: no aliasing, no lost or stale contents, moved-from strings are empty.", "quantifier": "every finite program over string objects", "why_tests_cant": "All interleavings of aliasing operations.", "anchors": ["berts/models/unicode.cpp: ustr_impl, ustr constructors and operators"]}
{"id": "C74", "title": "A default-constructed string is the empty string", "statement": "A default-constructed string can be used like the empty string (compared, measured, concatenated).", "quantifier": "every program using a default-constructed string", "why_tests_cant": "The size field of a fresh object is indeterminate; tests usually see 0.", "anchors": ["berts/models/unicode.cpp: ustr_impl::ustr_impl, ustr::ustr"]}
{"id": "C75", "title": "Destroyed strings release all their memory", "statement": "After all string objects of a program have been destroyed no memory allocated by them remains.", "quantifier": "every program over string objects", "why_tests_cant": "Leaks are invisible to functional tests.", "anchors": ["berts/models/unicode.cpp: ustr::ustr, ustr::~ustr, ustr::dispose"]}
{"id": "C76", "title": "UTF-8 text survives conversion to the string class and back", "statement": "Encoding a string that was built from valid UTF-8 returns the original bytes, and re-reading the encoding of a well-formed string returns the same string.", "quantifier": "every byte sequence accepted by the decoder; every well-formed string", "why_tests_cant": "1.1 million code points and all their sequences.", "anchors": ["berts/models/unicode.cpp: ustr::ustr(const char*, size_t), ustr::encode"]}
{"id": "C77", "title": "A second merge list ranks after the first", "statement": "Loading a further merge list into a loaded model appends it: its rules have higher ranks than all rules of the first list that it does not redefine.", "quantifier": "every pair of vocabularies and merge lists that load", "why_tests_cant": "Only lists with repeated pairs show the difference.", "anchors": ["berts/models/bpe.cpp: bpe::load_vocab"]}
{"id": "C78", "title": "Canonical BPE also with a short unknown token", "statement": "The equivalence of C35 also holds when the unknown token is not longer than the subword prefix.", "quantifier": "every vocabulary and merge list that loads, every word", "why_tests_cant": "Needs a particular interplay of ranks, prefix and unknown token.", "anchors": ["berts/models/bpe.cpp: merge_all lines 346-371, bpe::load_vocab"]}
{"id": "C79", "title": "Any byte string can be tokenized", "statement": "berts_tokenize handles every C string: it returns tokens or failure, but never runs into undefined behaviour.", "quantifier": "every byte string given as text, with a loaded BERT model", "why_tests_cant": "Only byte strings that are not UTF-8 show it, and the symptom (an indeterminate length) is not reproducible.", "anchors": ["berts/models/bert.cpp: basic_tokenize", "berts/models/unicode.cpp: ustr::ustr(const char*, size_t), normalize_nfc"]}
{"id": "C80", "title": "An unusable vocabulary is reported", "statement": "When the subword stage cannot run because the vocabulary has no continuation pieces, berts_tokenize reports failure.", "quantifier": "every vocabulary without an entry that starts with '##', every text", "why_tests_cant": "The return value of the stage is ignored; no test loads such a vocabulary.", "anchors": ["berts/models/bert.cpp: tokenize, wordpiece_tokenize"]}
{"id": "C81", "title": "A special token in the text gets its own id", "statement": "A special token such as [MASK], written as a separate word of the text, is tokenized to its own id.", "quantifier": "every vocabulary, every text", "why_tests_cant": "Depends on what the words before it did to the search state.", "anchors": ["berts/models/bert.cpp: wordpiece_tokenize, basic_tokenize"]}
{"id": "C82", "title": "Whitespace separates completely", "statement": "The words before and after a whitespace character do not depend on each other, so doubled, leading and trailing whitespace never changes the words.", "quantifier": "every text, every whitespace character up to U+FFFF, every configuration and classification", "why_tests_cant": "All texts and positions.", "anchors": ["berts/models/bert.cpp: clean_text_and_split"]}
{"id": "C83", "title": "The BERT tokenizer does what its description says", "statement": "Without lower-casing and accent stripping, the token sequence is the classification id, then for each word of the cleaned text (special tokens whole, other words split at punctuation) the ids of its greedy longest-match segmentation, then the separator id.", "quantifier": "every vocabulary, special-id assignment and valid UTF-8 text whose pieces all have a segmentation that the search does not run past", "why_tests_cant": "End-to-end claim over all texts and vocabularies.", "anchors": ["berts/berts.cpp: berts_tokenize", "berts/models/bert.cpp: tokenize, basic_tokenize, clean_text_and_split, wordpiece_tokenize"]}
{"id": "C84", "title": "Every vocabulary the converter accepts can be loaded", "statement": "Whenever the converter writes a vocabulary without an error, the loader reads the file without leaving the data and accepts it.", "quantifier": "every tokenizer vocabulary, including ones with an empty token", "why_tests_cant": "Needs a tokenizer with an empty-string token: its stored length 0 means 256 to the loader.", "anchors": ["berts/models/convert_hf_to_gguf.py: write_vocab", "berts/models/model_base.hpp: init_vocab"]}
{"id": "C85", "title": "Merges are applied in the order of their stored ranks", "statement": "Of two merges in the file the one with the smaller stored rank has priority.", "quantifier": "every merge table and vocabulary", "why_tests_cant": "Converters write the table in rank order, so every test file hides that the rank column is ignored.", "anchors": ["berts/models/roberta.cpp: vocab::init (commented-out rank)", "berts/models/bpe.cpp: load_vocab"]}
{"id": "C86", "title": "RoBERTa answers every 7-bit text", "statement": "For every loaded RoBERTa model whose special tokens are not empty, berts_tokenize returns true or false on every 7-bit text, in at most one splitting step per byte and without undefined behaviour; converting any id to a token is defined; loading a vocabulary of UTF-8 tokens never aborts and is undefined only when the unknown token decodes to bytes that are not UTF-8.", "quantifier": "every model file, text, regex engine, queue and set order", "why_tests_cant": "Combines termination and memory safety over all texts and vocabularies.", "anchors": ["berts/models/roberta.cpp: tokenize, model::tokenize, vocab::init, vocab::id_to_token"]}
{"id": "C87", "title": "Every output layer out of range is refused", "statement": "Every output layer outside -n..n makes berts_eval return false.", "quantifier": "every bert_int", "why_tests_cant": "Only INT64_MIN fails, by signed overflow when negated.", "anchors": ["berts/models/model_berts.hpp:127-140"]}
{"id": "C88", "title": "Valid requests are defined for zero tokens", "statement": "A request of zero tokens that passes validation is answered without undefined behaviour.", "quantifier": "every sound model", "why_tests_cant": "A sanitizer-free build may seem to work; the division by zero is inside the tensor library.", "anchors": ["berts/models/model_berts.hpp: eval", "berts/models/bert.cpp: build_graph"]}
{"id": "C89", "title": "Graphs beyond the node limit stop the process", "statement": "A request whose graph needs more nodes (10 + 46 per layer + 5 for pooling) than the tensor library's limit aborts; with 2048 nodes that is every evaluation of layer 45 or more.", "quantifier": "every sound model and valid request", "why_tests_cant": "Needs models deeper than any published BERT.", "anchors": ["berts/models/bert.cpp: build_graph (ggml_new_graph)"]}
{"id": "C90", "title": "RoBERTa position ids agree with the reference implementation", "statement": "Position ids equal those of Hugging Face's create_position_ids_from_input_ids.", "quantifier": "every token sequence and padding id", "why_tests_cant": "Tests without padding tokens agree.", "anchors": ["berts/models/roberta.cpp: model::build_graph"]}
{"id": "C91", "title": "berts_eval computes the BERT encoder", "statement": "With a buffer of the reported size berts_eval returns the embedding (word + position + segment rows, normalised) sent through the first layers up to the requested one (multi-head scaled dot-product attention, residuals, layer norms with the model's constant, GELU feed-forward), row by row without pooling, or the pooler's dense + tanh of the first/average/maximum row, in terms of uninterpreted arithmetic.", "quantifier": "every arithmetic, sound model and runnable request", "why_tests_cant": "Transposition and stride mistakes can cancel for the sizes tested.", "anchors": ["berts/models/bert.cpp: build_graph", "berts/models/roberta.cpp: build_graph", "berts/models/utils.cpp"]}
{"id": "C92", "title": "berts_eval_lm computes the LM head", "statement": "The probabilities returned are softmax(decoder(LN(act(dense(h))))) of each hidden state, act being GELU for RoBERTa and the configured activation for BERT.", "quantifier": "every arithmetic, sound model, hidden states", "why_tests_cant": "All sizes and vocabularies.", "anchors": ["berts/models/bert.cpp: build_lm_graph", "berts/models/roberta.cpp: build_lm_graph"]}
{"id": "C93", "title": "A head count that does not divide the hidden size stops the process", "statement": "If the head count does not divide the hidden size, every evaluation of a layer aborts.", "quantifier": "every such model and valid request", "why_tests_cant": "No published model has such sizes.", "anchors": ["berts/models/bert.cpp: build_graph (attention)"]}
{"id": "C94", "title": "Only GELU encoders evaluate", "statement": "If the model's activation is not GELU every evaluation of layer 1 or more returns false without writing values (the loader refuses such files, see C101).", "quantifier": "every such model and valid request", "why_tests_cant": "Needs models with each activation.", "anchors": ["berts/models/bert.cpp: build_graph (intermediate)"]}
{"id": "C95", "title": "A model without LM head fails only with buffers", "statement": "Without LM tensors berts_eval_lm with both buffers returns false and leaves them unchanged, while a dry run of the same request succeeds.", "quantifier": "every such model and request", "why_tests_cant": "Needs a model file without head.", "anchors": ["berts/models/bert.cpp: build_lm_graph", "berts/models/model_berts.hpp: eval_lm"]}
{"id": "C96", "title": "A null segment array means all zeros", "statement": "berts_eval with a null segment pointer behaves exactly as with an array of zeros.", "quantifier": "every request", "why_tests_cant": "All requests, including failing ones.", "anchors": ["berts/berts.cpp: berts_eval", "berts/models/internal.cpp"]}
{"id": "C97", "title": "A file cut short is noticed", "statement": "No tensor of a loaded file reaches beyond its end.", "quantifier": "every file", "why_tests_cant": "Needs files cut inside the last tensor.", "anchors": ["berts/models/gguf.cpp: load_from_file (tensor loop)"]}
{"id": "C98", "title": "Loading is defined for every file the tensor library accepts", "statement": "load_from_file has defined behaviour for every file gguf_init_from_file accepts.", "quantifier": "every file", "why_tests_cant": "Needs files with tensor names of 64 bytes or more.", "anchors": ["berts/models/gguf.cpp: init_gg, load_from_file"]}
{"id": "C100", "title": "The loader checks the shapes of the weights", "statement": "A loaded model evaluates valid requests: the shapes of its weights agree with the settings.", "quantifier": "every file", "why_tests_cant": "Needs files with inconsistent shapes.", "anchors": ["berts/models/bert.cpp: weights::init"]}
{"id": "C101", "title": "Settings of a loaded model are those of the file", "statement": "After loading, hidden size, layer count, head count, maximum length, intermediate size are the file's, the segment count is the file's or 2, the constant of the layer norms is the file's double or 1e-12, the activation is GELU, and the model is BERT iff the file says so.", "quantifier": "every loaded file", "why_tests_cant": "All combinations of settings.", "anchors": ["berts/models/gguf.cpp: load_from_file"]}
{"id": "C102", "title": "From the file to the result", "statement": "If a file has the declared shapes, the model made from it is sound with the rows of the file's tensors as parameters, and berts_eval returns the encoder of those rows; likewise the LM head.", "quantifier": "every such file, arithmetic, element decoding and request", "why_tests_cant": "Connects loading and evaluation for all sizes.", "anchors": ["berts/models/gguf.cpp: load_from_file", "berts/models/bert.cpp: weights::init, build_graph", "berts/models/roberta.cpp"]}
{"id": "C99", "title": "The label of a quantized file names its type", "statement": "A file quantized to a type is described by the loader with the name of that type.", "quantifier": "every type the tool offers", "why_tests_cant": "All types against two tables of numbers.", "anchors": ["berts/models/quantize.cpp: berts_model_quantize (general.file_type)", "berts/models/gguf.cpp: type_to_str"]}
{"id": "C103", "title": "Conversion never overruns its buffer", "statement": "The output buffer of the conversion holds everything ggml_quantize_chunk writes.", "quantifier": "every target type, tensor size", "why_tests_cant": "All sizes.", "anchors": ["berts/models/quantize.cpp: conv_buf::reserve, quantize"]}
{"id": "C104", "title": "Every offered type gives a usable file", "statement": "For every type the tool offers, quantizing a model gives a file that loads.", "quantifier": "every type, every model that loads", "why_tests_cant": "Needs a conversion with each type.", "anchors": ["berts/models/quantize.cpp: quantize", "berts/examples/quant.cpp"]}
{"id": "C105", "title": "Quantization without a model touches nothing", "statement": "If the input does not load, or the output cannot be opened, berts_model_quantize returns false and writes no file; otherwise its behaviour is defined and success implies a file was written.", "quantifier": "every input, output, write failure", "why_tests_cant": "All outcomes.", "anchors": ["berts/models/quantize.cpp: berts_model_quantize"]}
{"id": "C106", "title": "A quantized model evaluates the converted rows", "statement": "If the source has the declared shapes and its rows are whole blocks, the file written is a model with the same shapes and settings, its matrices are the converted rows, and its evaluator is sound for them.", "quantifier": "every such model and target type", "why_tests_cant": "Connects quantization, loading and evaluation.", "anchors": ["berts/models/quantize.cpp: berts_model_quantize", "berts/models/gguf.cpp: load_from_file"]}
{"id": "C107", "title": "The usage text gives the real size per weight", "statement": "The bits per weight the tool lists for a type are the size of a block of that type in bits over the number of weights in a block.", "quantifier": "every type the tool offers", "why_tests_cant": "Compares a hand-written table with the block layouts of the tensor library.", "anchors": ["berts/examples/quant.cpp: quant_types, show_usage"]}
{"id": "C109", "title": "fill_mask prints the k most probable tokens", "statement": "For a prompt with one mask, fill_mask exits with 0 after printing k lines: the k tokens with the highest probabilities of the language model head at the position of the mask, best first, each with its id, its probability and its text padded to the longest text printed.", "quantifier": "every model, prompt, k and content of fresh memory", "why_tests_cant": "All models and prompts; positions of the mask; ties.", "anchors": ["berts/examples/fill_mask.cpp: main", "berts/berts.cpp: berts_eval_lm, berts_id_to_token"]}
{"id": "C110", "title": "fill_mask refuses a k that is no positive integer", "statement": "When the second argument is not a positive integer, fill_mask says so and exits with 1; otherwise k is the integer written there.", "quantifier": "every argument string", "why_tests_cant": "All strings, including those without digits and those out of range.", "anchors": ["berts/examples/fill_mask.cpp: main"]}
{"id": "C111", "title": "fill_mask wants exactly one mask", "statement": "When the tokens of the prompt do not contain the mask token exactly once, fill_mask prints no prediction and exits with 1.", "quantifier": "every prompt whose tokens fit the buffer", "why_tests_cant": "All token sequences.", "anchors": ["berts/examples/fill_mask.cpp: main"]}
{"id": "C112", "title": "Exit status of fill_mask", "statement": "fill_mask exits with 0 only after printing exactly k lines, and with 1 otherwise: wrong number of arguments, a model that cannot be loaded, a k above the vocabulary size, too many tokens, a model without language model head.", "quantifier": "every argument vector and model", "why_tests_cant": "All argument vectors; every early exit.", "anchors": ["berts/examples/fill_mask.cpp: main"]}
{"id": "C113", "title": "Every predicted id has a text that fits", "statement": "In a model loaded from any file, every id below the vocabulary size has a text of at most 256 bytes, so the fixed buffer of fill_mask is large enough; the ids of cls, sep and mask are valid; the vocabulary size the API reports is the one the evaluator uses.", "quantifier": "every file that loads, BERT or RoBERTa", "why_tests_cant": "All files.", "anchors": ["berts/examples/fill_mask.cpp: main", "berts/models/internal.cpp: init_vocab", "berts/berts.cpp: berts_id_to_token"]}
{"id": "C114", "title": "From a model file to the printed predictions", "statement": "For a BERT file with weights of the declared shapes and a prompt with one mask, the lines fill_mask prints are the k best of the mathematical BERT masked language model whose parameters are the numbers stored in the file.", "quantifier": "every such file, prompt and k", "why_tests_cant": "Connects file layout, tokenizer, encoder, head, sorting and printing for all files.", "anchors": ["berts/examples/fill_mask.cpp: main", "berts/berts.cpp: berts_load_from_file", "berts/models/bert.cpp: build_graph"]}
{"id": "C115", "title": "A written file is read as it was written", "statement": "Reading the bytes of a file made of settings, tensor descriptions and data gives back exactly these settings, in order, the descriptions and the place of the data, whatever follows the descriptions; the loader sees for each of its keys the first pair of that key, and nothing where there is none.", "quantifier": "all settings and descriptions the format can hold", "why_tests_cant": "All types of settings, lengths and alignments.", "anchors": ["berts/models/gguf.cpp: load_from_file, gguf_init_from_file (ggml)", "berts/models/gguf.hpp: gguf_u32, gguf_str, gguf_bool"]}
{"id": "C116", "title": "Truncated and foreign files are refused", "statement": "A model file cut anywhere before the end of its descriptions, and any file that does not begin with the magic, loads as null: no undefined behaviour and no abort.", "quantifier": "every readable file, every cut, every other byte string", "why_tests_cant": "Every position of the cut.", "anchors": ["berts/models/gguf.cpp: load_from_file, gguf_init_from_file (ggml)"]}
{"id": "C117", "title": "Quantizing a file gives a file that loads and evaluates the same model", "statement": "From bytes to bytes: if a file loads, has no key twice, and its weights have rows of whole blocks, then the file written by quantization loads with the same settings and vocabulary, keeps every other pair (texts up to their first zero byte), and evaluates the reference computation on the converted weights and the other parameters unchanged.", "quantifier": "every file, type and conversion", "why_tests_cant": "All files; the composition of reader, loader, converter, writer, reader, loader and evaluation.", "anchors": ["berts/models/quantize.cpp: berts_model_quantize", "berts/models/gguf.cpp: load_from_file, gguf_init_from_file (ggml)"]}
{"id": "C118", "title": "An unfinished quantization leaves nothing that can be loaded", "statement": "When quantization fails or is interrupted, the output file loads as null.", "quantifier": "every tensor list, every point of interruption", "why_tests_cant": "Every operation and every number of bytes the device takes.", "anchors": ["berts/models/quantize.cpp: berts_model_quantize", "berts/models/gguf.cpp: load_from_file, gguf_init_from_file (ggml)"]}
{"id": "C119", "title": "Settings given twice survive quantization", "statement": "When a file has two pairs of one key, the quantized file behaves as the source does.", "quantifier": "every file", "why_tests_cant": "Needs duplicate keys.", "anchors": ["berts/models/quantize.cpp: berts_model_quantize", "berts/models/gguf.hpp: gguf_u32"]}
{"id": "C120", "title": "A converted checkpoint is a readable model file", "statement": "For a BERT or RoBERTa checkpoint with a proper tokenizer, numbers of 32 bits and a known activation the conversion succeeds; the file is read by the loader's reader, no tensor name occurs twice, and its settings are those of the configuration and the tokenizer, under the keys the loader asks for.", "quantifier": "all checkpoints", "why_tests_cant": "All configurations, vocabularies and tensors.", "anchors": ["berts/models/convert_hf_to_gguf.py: convert, write_bert, write_roberta", "berts/models/gguf.cpp: load_from_file"]}
{"id": "C121", "title": "A converted BERT checkpoint loads with its vocabulary", "statement": "A converted BERT checkpoint loads. The model has the tokens of the tokenizer under their ids, names of their own for ids without a token, the special ids of the tokenizer (or of the usual spellings), the cleaning flags of the tokenizer, and the numbers of the configuration.", "quantifier": "all BERT checkpoints with the parameters their configuration declares", "why_tests_cant": "All vocabularies, gaps, flags and sizes.", "anchors": ["berts/models/convert_hf_to_gguf.py: write_bert, write_vocab", "berts/models/bert.cpp: vocab::init", "berts/models/model_base.hpp: init_vocab"]}
{"id": "C122", "title": "A converted RoBERTa checkpoint loads with its vocabulary", "statement": "A converted RoBERTa checkpoint with merges and GELU loads. The model has the tokens under their ids, both look-up directions agree, the special ids are the tokenizer's (or of the usual spellings), and positions are counted from its padding id.", "quantifier": "all RoBERTa checkpoints with the parameters their configuration declares", "why_tests_cant": "All vocabularies and merges.", "anchors": ["berts/models/convert_hf_to_gguf.py: write_roberta, write_merge", "berts/models/roberta.cpp: vocab::init"]}
{"id": "C123", "title": "Conversion rounds weight matrices only", "statement": "Every parameter is stored under its name with its shape and values: parameters named .weight with exactly two extents other than 1 in half precision, the others in single; with --use-f32 nothing is rounded. The head's plain bias, which is the decoder's, is left out. The file has no further tensors but the vocabulary and the merges.", "quantifier": "all checkpoints", "why_tests_cant": "All parameter names and shapes.", "anchors": ["berts/models/convert_hf_to_gguf.py: convert"]}
{"id": "C124", "title": "A converted checkpoint evaluates to the checkpoint's encoder", "statement": "From checkpoint to result: after conversion and loading, berts_eval yields the reference encoder computed on the checkpoint's own parameters (weight matrices as rounded) and its layer-norm constant, with the positions of its class.", "quantifier": "all checkpoints, token sequences, layers and pooling types", "why_tests_cant": "The composition of converter, file format, loader and graph.", "anchors": ["berts/models/convert_hf_to_gguf.py: convert", "berts/models/gguf.cpp: load_from_file", "berts/models/bert.cpp: build_graph"]}
{"id": "C125", "title": "A converted checkpoint fills masks with its own probabilities", "statement": "From checkpoint and prompt to the lines printed: the mask filling tool on a converted BERT checkpoint prints the k most probable tokens under the checkpoint's encoder and head.", "quantifier": "all BERT checkpoints with head, prompts and k", "why_tests_cant": "The composition of converter, loader, tokenizer, encoder, head and tool.", "anchors": ["berts/models/convert_hf_to_gguf.py: convert", "berts/examples/fill_mask.cpp: main"]}
{"id": "C126", "title": "A failed conversion leaves what was there", "statement": "Only BERT and RoBERTa checkpoints with a known activation, numbers of 32 bits and, for BERT, nothing that is never split are converted. When a conversion fails, no model can be loaded from the output path that was not there before, and a model that was there before is kept.", "quantifier": "all checkpoints and earlier files", "why_tests_cant": "Failure paths of the script.", "anchors": ["berts/models/convert_hf_to_gguf.py: convert"]}
{"id": "C127", "title": "Whatever the converter accepts, the loader accepts", "statement": "A converted checkpoint loads whatever its activation.", "quantifier": "all checkpoints the converter accepts", "why_tests_cant": "The two programs keep separate lists.", "anchors": ["berts/models/convert_hf_to_gguf.py: write_roberta", "berts/models/gguf.cpp: load_from_file"]}
{"id": "C128", "title": "Conversion keeps the extents of parameters", "statement": "A converted checkpoint evaluates for every intermediate size.", "quantifier": "all sizes, also 1", "why_tests_cant": "Needs a degenerate size.", "anchors": ["berts/models/convert_hf_to_gguf.py: convert"]}
{"id": "C129", "title": "Without basic tokenization words are left alone", "statement": "A checkpoint whose tokenizer has do_basic_tokenize off gives, after conversion and loading, the ids of its words as they stand.", "quantifier": "all BERT checkpoints with do_basic_tokenize off", "why_tests_cant": "Flag combinations.", "anchors": ["berts/models/convert_hf_to_gguf.py: write_bert", "berts/models/bert.cpp: basic_tokenize"]}
{"id": "C130", "title": "Threads do not disturb each other", "statement": "In a process where several threads load, quantize, free and use models, and use a loaded model together, each call returns what it would return if its thread ran alone, whatever the schedule, as long as the tensor library has a context for every file read and every thread; every thread that gets its turns finishes, and undefined behaviour or an abort happens only if a thread's own calls cause it.", "quantifier": "all programs of any number of threads, all schedules, all files and models", "why_tests_cant": "Schedules cannot be enumerated by tests.", "anchors": ["berts/berts.h", "berts/berts.cpp", "berts/models/gguf.cpp: load_from_file", "berts/models/model_berts.hpp: eval, eval_lm"]}
{"id": "C131", "title": "Models can be loaded and freed any number of times", "statement": "A program in one thread can load and free models (or try to load unsuitable files) any number of times; a load of a good file always succeeds.", "quantifier": "all programs of one thread", "why_tests_cant": "Needs more loads than the library's context table has entries.", "anchors": ["berts/models/gguf.cpp: load_from_file", "berts/models/internal.cpp: free_context, free_model", "berts/berts.cpp: berts_free"]}
{"id": "C132", "title": "Calls in another thread never make a call undefined", "statement": "If each of two calls is in order on its own, running them at the same time in two threads is in order.", "quantifier": "all pairs of calls", "why_tests_cant": "Depends on the number of live contexts and on the schedule.", "anchors": ["berts/models/model_berts.hpp: eval, eval_lm", "berts/models/gguf.cpp: load_from_file"]}
{"id": "C133", "title": "RoBERTa tokenization is byte-level byte-pair encoding", "statement": "For a loaded RoBERTa model whose special tokens are spelled with visible 7-bit characters, tokenizing a 7-bit text cuts it at the special tokens, drops blanks before a mask, cuts the rest into words by the pattern, and gives each word the ids the textbook byte-pair algorithm gives it: its bytes' tokens (a run of bytes without a token is one unknown token), merged by the lowest rank first and leftmost first until no listed pair is left. These ids are determined, belong to tokens, and are no more than the text has bytes.", "quantifier": "all models, merge lists and 7-bit texts, all orders of hashing and of equal queue entries", "why_tests_cant": "The encoder works with a heap, linked symbols, an alphabet of stand-in characters and a cache; that they compute the textbook result for every vocabulary needs a proof.", "anchors": ["berts/models/roberta.cpp: tokenize", "berts/models/bpe.cpp: tokenize, load_vocab"]}
{"id": "C134", "title": "A converted RoBERTa tokenizer encodes like the original merges", "statement": "After converting and loading a RoBERTa checkpoint, a 7-bit text is encoded by exactly the tokenizer's own tokens, ids and list of merges, in the order of that list.", "quantifier": "all checkpoints, merge lists and 7-bit texts", "why_tests_cant": "Merges are rewritten as ids in a tensor, read back, and turned into rules under other names.", "anchors": ["berts/models/convert_hf_to_gguf.py: write_vocab, write_merge", "berts/models/roberta.cpp: load_vocab, tokenize"]}
{"id": "C108", "title": "A RoBERTa checkpoint fills masks with its own probabilities", "statement": "For a RoBERTa checkpoint that is converted, the mask filling tool on a 7-bit prompt with one mask prints the k most probable tokens at the mask, by the parameters of the checkpoint and the byte-pair encoding of the prompt between cls and sep.", "quantifier": "all checkpoints, prompts, k and tensor library kernels", "why_tests_cant": "The probabilities depend on every parameter through conversion, loading, tokenization and both graphs.", "anchors": ["berts/models/convert_hf_to_gguf.py", "berts/examples/fill_mask.cpp: main", "berts/models/roberta.cpp"]}
{"id": "C135", "title": "The C++ and the C interface evaluate alike", "statement": "berts::eval on vectors gives the same result, buffer and count as berts_eval on the same arrays with the length as token count, with and without segments. A segment vector of another length, which only the C++ interface can express, is refused without touching the caller's buffer and count.", "quantifier": "all contexts, token and segment vectors, settings and buffers", "why_tests_cant": "Equality over every input and every arithmetic; a test compares two calls.", "anchors": ["berts/berts.cpp: berts::eval", "berts/models/internal.cpp: model::eval", "berts/berts.cpp: berts_eval"]}
{"id": "C136", "title": "A freshly initialised request means the pooled first token of the last layer", "statement": "After berts_init_eval_info, berts_eval answers with the pooler applied to the first token's hidden state after the last layer; null is ignored. Every model accepts such a request.", "quantifier": "all models, token arrays and earlier contents of the settings", "why_tests_cant": "The default layer is relative to the number of layers, which includes zero.", "anchors": ["berts/berts.cpp: berts_init_eval_info", "berts/berts.cpp: berts_init_eval_lm_info", "berts/models/model_berts.hpp: eval"]}
{"id": "C137", "title": "Pooled results are functions of the unpooled result", "statement": "For every layer, the CLS, average and maximum results of berts_eval are the pooler applied to the first row, the column means and the column maxima of what berts_eval returns without pooling for the same tokens.", "quantifier": "all models, requests and kernels", "why_tests_cant": "Relates two calls with different graphs for all inputs.", "anchors": ["berts/models/model_berts.hpp: eval", "berts/models/bert.cpp: build_graph", "berts/models/roberta.cpp: build_graph"]}
{"id": "C138", "title": "Later layers do not influence an earlier layer's result", "statement": "Two models that agree in embedding, pooler and the layers up to the requested one give the same result, whatever their other layers are and however many there are.", "quantifier": "all pairs of models, requests and kernels", "why_tests_cant": "Quantifies over pairs of models; counting layers from the end hides the dependency.", "anchors": ["berts/models/model_berts.hpp: eval", "berts/models/bert.cpp: build_graph"]}
{"id": "C139", "title": "berts_arch tells the architecture the file declares", "statement": "For a loaded context berts_arch returns the file's architecture setting, which is BERT or RoBERTa and agrees with the tokenizer and positions in use; for a null context it returns a value no loaded context has.", "quantifier": "all files that load", "why_tests_cant": "Every loadable file, including those with unusual settings.", "anchors": ["berts/berts.cpp: berts_arch", "berts/models/internal.cpp: get_hparams", "berts/models/gguf.cpp: load_from_file"]}
{"id": "C140", "title": "A converted and quantized checkpoint evaluates on its own parameters in blocks", "statement": "Take a checkpoint that the converter and the loader accept, convert it, and quantize the file to a type that can be converted to, where the rows of its weights are whole blocks and the weights of layer norms are vectors. Quantization succeeds when the device has room; the file it writes loads; and evaluating the loaded model gives the BERT/RoBERTa encoder computed on the checkpoint's parameters, where every weight matrix of at least 2 x 2 is replaced by what is read back from the blocks made of its floats (of the half floats of the file, widened, when the conversion rounded), and every other parameter is as in the converted file.", "quantifier": "for all checkpoints, both float modes, all target types, block conversions, tensor libraries, tokens, segments, layers, poolings and buffers", "why_tests_cant": "needs every checkpoint and every quantization format through three programs; the wrong matrix quantized, a skipped matrix or a shifted block gives plausible numbers", "anchors": ["berts/models/convert_hf_to_gguf.py: main", "berts/quantize.cpp: model_quantize", "berts/berts.cpp: load_from_file", "berts/berts.cpp: berts_eval"]}
{"id": "C141", "title": "Filling masks with a converted and quantized checkpoint", "statement": "For a checkpoint with a masked-language head, converted and quantized as in C140, the fill-mask tool on the quantized file prints the k most probable tokens at the mask position, where probabilities come from the encoder and the head computed on the checkpoint's parameters in blocks; the tokens, the ids of the prompt (WordPiece with the tokenizer's flags for BERT, byte pairs for RoBERTa) and the special tokens are those of the unquantized checkpoint.", "quantifier": "for all checkpoints of both classes with a head, both float modes, all target types and block conversions, all prompts, k and orders", "why_tests_cant": "end-to-end over checkpoint, converter, quantizer, loader, tokenizer, encoder, head and tool; tests compare a few prompts by eye", "anchors": ["berts/examples/fill_mask.cpp: main", "berts/quantize.cpp: model_quantize", "berts/models/convert_hf_to_gguf.py: main"]}
{"id": "C142", "title": "WordPiece for every word", "statement": "For any vocabulary with a '##' entry and any words, the ids are exactly those of this run: at each step the id put out is that of the longest vocabulary entry the rest of the word begins with (entries written with '##' inside a word), while what is taken off the word is the longest prefix that begins any entry; when nothing matches, the unknown id is put out, the word is given up and the next word is searched in the place the run was in. There is exactly one such run.", "quantifier": "for all vocabularies below 2^32-1 entries, all unknown ids, all word lists", "why_tests_cant": "dead ends and words given up halfway depend on the interplay of the whole vocabulary with the text; a sample of words shows only clean cases", "anchors": ["berts/models/bert.cpp: wordpiece_tokenize", "berts/models/trie.cpp: search_trie_substr"]}
{"id": "C143", "title": "Agreement with the reference WordPiece", "statement": "For a single word, the code answers what the reference WordPiece answers (the greedy segmentation, or one unknown id when there is none) if and only if the word is clean: it segments without a longer entry that begins along the text and then diverges, or no entry is a prefix of it.", "quantifier": "for all vocabularies and words, where the unknown id is not that of a '##' entry and the word does not properly extend the unknown token", "why_tests_cant": "an exact characterisation over all vocabularies and words; tests find agreement or disagreement only at the points tried", "anchors": ["berts/models/bert.cpp: wordpiece_tokenize", "berts/models/trie.cpp: search_trie_substr"]}
{"id": "C144", "title": "When earlier words leave later words alone", "statement": "The ids of a list of words followed by any other words are the ids of the two lists, for every second list, if and only if the run over the first list ends in the start place, i.e. not after a word given up halfway.", "quantifier": "for all vocabularies, all word lists on both sides", "why_tests_cant": "the 'only if' needs a distinguishing second text for every vocabulary, the 'if' needs all second texts", "anchors": ["berts/models/bert.cpp: wordpiece_tokenize"]}
{"id": "C145", "title": "Tokenization of every text without lower-casing", "statement": "berts_tokenize's ids for any UTF-8 text, for any vocabulary with a '##' entry and any settings without lower-casing: [CLS], then the ids of the run of C142 over the pieces of the normalized and cleaned text (words cut at whitespace and around ideographs; special tokens kept whole; accents stripped and punctuation split off as the settings say), then [SEP]. With control characters removed and whitespace normalized, such a run exists for every text.", "quantifier": "for all Unicode tables and well-formed normalizers, all vocabularies, settings without lower-casing, and texts", "why_tests_cant": "composition of six stages over all Unicode text, including the words on which the search dead-ends", "anchors": ["berts/berts.cpp: berts_tokenize", "berts/models/bert.cpp: basic_tokenize", "berts/models/bert.cpp: wordpiece_tokenize"]}
{"id": "C146", "title": "In exact arithmetic the head writes probabilities", "statement": "If the tensor operations are exact real arithmetic, berts_eval_lm without top_k writes for every input token a row over the vocabulary whose entries lie in (0,1] and sum to 1; with 1 <= top_k <= vocabulary size it writes for every token k values in (0,1], in non-increasing order, whose sum is at least k / vocabulary size, at most 1, and 1 when k is the vocabulary size.", "quantifier": "for all real models with a head of the declared shapes, all hidden states, token counts, top_k, and buffers that are large enough", "why_tests_cant": "sums over arbitrary vocabularies and all real inputs; a test sees rounded sums of a few rows", "anchors": ["berts/models/model_berts.hpp: eval_lm", "berts/models/bert.cpp: build_lm_graph", "berts/models/roberta.cpp: build_lm_graph"]}
{"id": "C147", "title": "In exact arithmetic the printed scores are shares of 1", "statement": "In exact real arithmetic the k lines fill_mask prints carry scores in (0,1], from high to low, together between k / vocabulary size and 1, and exactly 1 when k is the whole vocabulary.", "quantifier": "for all models, prompts with one mask that the tool can evaluate, and k up to the vocabulary size", "why_tests_cant": "every model and prompt; tests compare a few printed lines", "anchors": ["berts/examples/fill_mask.cpp: main", "berts/models/model_berts.hpp: eval_lm"]}
{"id": "C148", "title": "In exact arithmetic pooled values lie strictly between -1 and 1", "statement": "In exact real arithmetic every one of the hidden_dim values berts_eval writes for a pooled request (CLS, average or maximum) lies strictly between -1 and 1, whatever the weights, the layer and the input.", "quantifier": "for all real models of the declared shapes, all valid pooled requests", "why_tests_cant": "all weights and inputs", "anchors": ["berts/models/bert.cpp: build_graph", "berts/models/roberta.cpp: build_graph", "berts/models/utils.cpp: bert_dense"]}
{"id": "C149", "title": "In exact arithmetic the returned states are bounded by the last layer norm", "statement": "In exact real arithmetic with a positive layer norm constant, the value at column i of any token's state, at any layer, is at most |scale_i| * sqrt(hidden_dim) + |shift_i| in absolute value, where scale and shift are those of the layer norm that ends that layer (of the embedding for layer 0); it does not depend on the other weights, the input or the number of layers.", "quantifier": "for all real models of the declared shapes, all valid unpooled requests, all layers, tokens and columns", "why_tests_cant": "a bound over all weights and inputs", "anchors": ["berts/models/bert.cpp: build_graph", "berts/models/utils.cpp: bert_layer_norm"]}
{"id": "C150", "title": "RoBERTa does not see where padding stands", "statement": "In exact real arithmetic, two RoBERTa requests with the same pairs of token and segment, the ordinary (non-padding) ones in the same order and the padding anywhere, both succeed; average and maximum pooling give the same values, CLS pooling too when both start with the same pair, and without pooling the k-th ordinary token has the same state in both, as have padding tokens with the same segment.", "quantifier": "for all real RoBERTa models of the declared shapes, all layers, all placements of padding", "why_tests_cant": "permutation invariance of attention over all weights, inputs and placements", "anchors": ["berts/models/roberta.cpp: build_graph", "berts/models/bert.cpp: self_attention"]}
{"id": "C151", "title": "Padding tokens do not influence a RoBERTa result", "statement": "Appending padding tokens to a RoBERTa request leaves the pooled result unchanged.", "quantifier": "for all RoBERTa models, requests and numbers of padding tokens", "why_tests_cant": "for some models and poolings the change is small; a test with a tolerance passes", "anchors": ["berts/models/roberta.cpp: build_graph", "berts/models/bert.cpp: self_attention"]}
{"id": "C152", "title": "The embedding layer does not look ahead", "statement": "A request for layer 0 (the embedding) of a BERT or RoBERTa model gives each token a state that depends on that token, its segment and the tokens before it only: two requests that begin with the same tokens and segments give these tokens the same states, and the same CLS-pooled result.", "quantifier": "for all models, arithmetics, common beginnings and pairs of continuations", "why_tests_cant": "sampling continuations cannot show that none of them matters; position numbering of RoBERTa counts over the whole request", "anchors": ["berts/models/bert.cpp: model::build_graph", "berts/models/roberta.cpp: model::build_graph"]}
{"id": "C153", "title": "The word pattern cuts a text into its words", "statement": "The regular expression of the RoBERTa tokenizer cuts every text into exactly these words, from left to right: an English contraction; otherwise the longest run of letters, of digits or of other visible characters, with one space before it if there is one; otherwise blanks, of which the last one before something visible is left over. Nothing lies between matches, no piece is empty, and the words put together are the text.", "quantifier": "for all Unicode texts (also unpaired surrogates for the statement about gaps), for all letter, digit and blank classes with the listed properties", "why_tests_cant": "an expression with ordered alternatives, greedy repetition and look-ahead over an infinite set of texts", "anchors": ["berts/models/roberta.cpp: tokenize", "berts/models/unicode.cpp: regex::split"]}
{"id": "C154", "title": "RoBERTa tokenization is determined by vocabulary, merges and text", "statement": "The ids of a 7-bit text are the byte-pair encodings of the words of its ordinary parts (words as in C153) with the ids of the special tokens in between; there is exactly one such sequence.", "quantifier": "for all loaded RoBERTa vocabularies with visible 7-bit special tokens, all merge lists, all 7-bit texts", "why_tests_cant": "quantifies over models and texts, and over every behaviour of the queue and of the iteration order", "anchors": ["berts/models/roberta.cpp: tokenize", "berts/models/bpe.cpp: bpe::tokenize"]}
{"id": "C155", "title": "RoBERTa tokenizes texts that meet at a blank independently", "statement": "If a text ends with a visible character and another one begins with a blank, the ids of the two put together are the ids of the first followed by the ids of the second, also if special tokens and masks occur in them.", "quantifier": "for all loaded RoBERTa vocabularies with prefix-free special tokens and all pairs of 7-bit texts that meet at a blank", "why_tests_cant": "cache, trimming before masks and look-ahead could couple the two texts for rare inputs only", "anchors": ["berts/models/roberta.cpp: tokenize"]}
{"id": "C156", "title": "Regular expressions: test and split mean what they say", "statement": "regex::test is true exactly if the text is not empty and some part of it is a text of the expression, and false for an expression that did not compile; every place reported to regex::split is such a part, in whole characters; splitting loses nothing whatever the expression.", "quantifier": "for all expressions built from classes, sequence, alternative, option, repetition, negative look-ahead and ^, and all texts", "why_tests_cant": "infinitely many expressions and texts", "anchors": ["berts/models/unicode.cpp: regex::test", "berts/models/unicode.cpp: regex::split"]}
{"id": "C157", "title": "Programs over Unicode strings observe what a buffer-free specification says", "statement": "Any program that constructs, copies, moves, joins, encodes, normalizes, lower-cases, upper-cases and destroys ustr objects observes, step by step, exactly the texts, flags, undefined behaviour and misuse given by a specification without buffers, sizes and two-step ICU calls (a text and one of three conditions per object).", "quantifier": "for all programs and all behaviours of normalization and case mapping", "why_tests_cant": "error codes left in an object by one call change later calls; the sequences are unbounded", "anchors": ["berts/models/unicode.cpp: ustr::ustr", "berts/models/unicode.cpp: ustr::encode", "berts/models/unicode.cpp: normalize_nfc", "berts/models/unicode.cpp: to_lower"]}
{"id": "C158", "title": "Strings made from well-formed text behave as values", "statement": "A program that makes its strings from well-formed text, normalizes only into another string and maps no case observes what it would observe if every variable held a plain text, and has no undefined behaviour; provided normalization keeps text well-formed.", "quantifier": "for all such programs", "why_tests_cant": "aliasing and moved-from objects make the number of programs unbounded", "anchors": ["berts/models/unicode.cpp: ustr", "berts/models/unicode.cpp: normalize_nfc", "berts/models/unicode.cpp: normalize_nfd"]}
{"id": "C159", "title": "encode returns the text of a string whatever was done with the string before", "statement": "For a string holding well-formed text, encode() returns this text in UTF-8, also after the string was passed to other functions as a const argument.", "quantifier": "for all programs", "why_tests_cant": "the failure needs a case mapping of the same object earlier", "anchors": ["berts/models/unicode.cpp: ustr::encode", "berts/models/unicode.cpp: to_lower"]}
{"id": "C160", "title": "Normalization may be done in place", "statement": "normalize_nfc(a, b) returns true and b holds the normal form of a's text, also if a and b are the same object.", "quantifier": "for all states reached by programs, all texts and all normalizers", "why_tests_cant": "tests normalize into fresh objects", "anchors": ["berts/models/unicode.cpp: normalize_nfc", "berts/models/unicode.cpp: normalize_nfd", "berts/models/bert.cpp: safe_norm_nfc"]}
{"id": "C161", "title": "to_lower and to_upper give the mapped text", "statement": "to_lower(a, b) returns true, leaves a as it was and makes b the lower-case text of a.", "quantifier": "for all states reached by programs, all texts and all case mappings", "why_tests_cant": "the result depends on how ICU reports the size of the text", "anchors": ["berts/models/unicode.cpp: to_lower", "berts/models/unicode.cpp: to_upper", "berts/models/bert.cpp: basic_tokenize"]}
{"id": "C162", "title": "Every compiled regular expression is closed exactly once and never used afterwards", "statement": "However regex objects are constructed, moved, assigned, used and destroyed, no pattern is used after it was closed or closed twice, no two objects hold the same pattern, every opened pattern is held or closed, and when all objects are destroyed the closed patterns are those opened. Objects made by the default constructor or moved from hold none and find nothing.", "quantifier": "for all programs over regex objects", "why_tests_cant": "resource handling over unbounded sequences of moves", "anchors": ["berts/models/unicode.cpp: regex::regex", "berts/models/unicode.cpp: regex::operator=", "berts/models/unicode.cpp: regex::~regex"]}
{"id": "C163", "title": "Category names and punctuation", "statement": "category() names the thirty general categories, each with a different name; is_category(c, name) is true exactly if c has the category of that name; is_punct is true exactly for the ASCII characters that are no letter, digit, space or control character and for the characters of the seven punctuation categories.", "quantifier": "for all characters and all category tables", "why_tests_cant": "over a million characters; the table belongs to ICU's version", "anchors": ["berts/models/unicode.cpp: category", "berts/models/unicode.cpp: is_category", "berts/models/unicode.cpp: is_punct"]}
{"id": "C164", "title": "Normalization into another string", "statement": "normalize_nfc(a, b) and normalize_nfd(a, b) with different objects a and b return true, b then holds the normal form of a's text, and no other object changes; so the tokenizer's safe_norm_nfc and safe_norm_nfd return the normal form.", "quantifier": "for all states reached by programs, all texts and all normalizers", "why_tests_cant": "all texts and all earlier histories of both objects", "anchors": ["berts/models/unicode.cpp: normalize_nfc", "berts/models/unicode.cpp: normalize_nfd", "berts/models/bert.cpp: safe_norm_nfc"]}
{"id": "C165", "title": "Texts under a converted RoBERTa checkpoint are cut by the word pattern and then merged", "statement": "After converting and loading a RoBERTa checkpoint, a 7-bit text is cut at the special tokens, the stretches between them into words by the tokenizer's own word pattern (contractions, letters, digits, other characters, blanks), and every word is encoded by the checkpoint's tokens and list of merges; nothing is left to the regular expression engine.", "quantifier": "for all checkpoints, merge lists, 7-bit texts and tables of letters, digits and blanks", "why_tests_cant": "pattern, merges and conversion interact; texts are unbounded", "anchors": ["berts/models/roberta.cpp: tokenize", "berts/models/roberta.cpp: load_vocab", "berts/models/unicode.cpp: regex::split", "berts/models/convert_hf_to_gguf.py: write_merge"]}
{"id": "C166", "title": "From a RoBERTa checkpoint and a prompt to the printed lines with the tokenizer's own pattern", "statement": "For a RoBERTa checkpoint that is converted, and for one that is converted and quantized, the mask filling tool on a 7-bit prompt with one mask of three characters or more prints the k most probable tokens at the mask; the prompt is tokenized with the word pattern of the code, and the buffer sized by the prompt's length always suffices.", "quantifier": "for all checkpoints with a head, prompts, k, block conversions and tensor library kernels", "why_tests_cant": "end-to-end over converter, quantizer, loader, pattern, byte pairs, encoder, head and tool", "anchors": ["berts/examples/fill_mask.cpp: main", "berts/models/roberta.cpp: tokenize", "berts/models/convert_hf_to_gguf.py: main", "berts/quantize.cpp: model_quantize"]}
{"id": "C167", "title": "Only the descriptions and the tensors' own bytes matter for loading", "statement": "Two model files with the same settings, tokenizer settings, tensor descriptions and tensor bytes give the same result of loading, whatever lies between or behind the tensors and wherever the data begin; in particular bytes appended to a file change nothing.", "quantifier": "for all files, accepted or not, and all appended bytes", "why_tests_cant": "padding, gaps and trailing bytes are arbitrary", "anchors": ["berts/models/gguf.cpp: load_from_file", "berts/models/gguf.cpp: gguf_read"]}
{"id": "C168", "title": "The language-model head treats its inputs one by one", "statement": "What berts_eval_lm writes for one of several hidden states is what a call with this hidden state alone writes: ids and probabilities do not depend on the other hidden states, on their number or on the position.", "quantifier": "for all models, arithmetics, numbers of hidden states and k", "why_tests_cant": "batches and weights are arbitrary", "anchors": ["berts/models/bert.cpp: build_lm_graph", "berts/models/roberta.cpp: build_lm_graph", "berts/models/model_berts.hpp: eval_lm"]}
{"id": "C169", "title": "Predictions are ordered by the decoder's scores", "statement": "In exact arithmetic the ids written for a hidden state are those of its k highest scores before the softmax, best first, and adding one number to all decoder biases changes nothing that berts_eval_lm does.", "quantifier": "for all heads, hidden states, k, buffers and constants", "why_tests_cant": "weights and constants are arbitrary reals", "anchors": ["berts/models/bert.cpp: build_lm_graph", "berts/models/roberta.cpp: build_lm_graph", "berts/models/model_berts.hpp: eval_lm"]}
{"id": "C170", "title": "Key biases have no influence on results", "statement": "In exact arithmetic two models that differ in the key biases of their layers only give the same result for every evaluation.", "quantifier": "for all models, key biases, requests, poolings and layers", "why_tests_cant": "weights are arbitrary reals", "anchors": ["berts/models/bert.cpp: build_graph", "berts/models/roberta.cpp: build_graph"]}
{"id": "C171", "title": "Constants in front of a layer norm have no influence on results", "statement": "In exact arithmetic, adding a number to all entries of a row of the word, position or segment table (each row its own number), or of the output biases of attention and feed-forward parts, changes no evaluation result.", "quantifier": "for all models, constants, requests, poolings and layers", "why_tests_cant": "weights and constants are arbitrary reals", "anchors": ["berts/models/bert.cpp: build_graph", "berts/models/roberta.cpp: build_graph"]}
{"id": "C172", "title": "The log of a tokenizing call is determined line by line", "statement": "For every level, what berts_tokenize with a BERT model writes to the log is the sequence of its messages - special ids that are none, cleaning steps, every WordPiece hit or unknown remainder, the hint about the output buffer - filtered by the level, each cut at its first NUL and passed once through printf; the call is undefined exactly when one of the messages passing the filter is no printf format without arguments. Without a log file nothing is written and the ids are those without logging.", "quantifier": "for all ICU behaviours, vocabularies, settings with lower-casing off, texts with defined steps, levels and buffer sizes", "why_tests_cant": "texts and vocabularies are arbitrary and the levels interact with every step", "anchors": ["berts/models/bert.cpp: tokenize", "berts/models/bert.cpp: wordpiece", "berts/models/log.cpp: log", "berts/berts.cpp: berts_tokenize"]}
{"id": "C173", "title": "Tokenizing is defined at the default log level", "statement": "With the initial log level WARN, berts_tokenize of a valid text with a valid vocabulary returns its ids; the log contains one line for each remainder without an entry and nothing else but the hint about the buffer.", "quantifier": "for all vocabularies, settings with lower-casing off, texts and buffer sizes", "why_tests_cant": "the failing texts have a percent sign in a piece the vocabulary lacks", "anchors": ["berts/models/bert.cpp: wordpiece", "berts/models/log.cpp: log"]}
{"id": "C174", "title": "Texts without a percent sign tokenize at every log level, and above WARN in silence", "statement": "If no piece of the prepared text has a percent sign, the call returns its ids whatever the level and the file of the log; above WARN nothing is written, whatever the text.", "quantifier": "for all ICU behaviours, vocabularies, texts and log states", "why_tests_cant": "levels, texts and vocabularies are arbitrary", "anchors": ["berts/models/bert.cpp: tokenize", "berts/models/log.cpp: log"]}
{"id": "C175", "title": "Logging never changes an evaluation", "statement": "berts_eval and berts_eval_lm return, write to the caller's buffers, are undefined and abort exactly as without logging, for every state of the log.", "quantifier": "for all models, arithmetics, requests, buffers, log levels, with and without a log file", "why_tests_cant": "log states and requests are arbitrary", "anchors": ["berts/models/model_berts.hpp: eval", "berts/models/model_berts.hpp: eval_lm", "berts/models/log.cpp: log", "berts/berts.cpp: berts_eval"]}
{"id": "C176", "title": "What an evaluation writes at the default log level", "statement": "At the initial level berts_eval writes one line without context or model; with a model it writes nothing except the line about an unknown activation function, and that one exactly for requests that are valid and refused; with GELU, or when no layer is asked for, valid requests are never refused.", "quantifier": "for all models, arithmetics, requests and buffers", "why_tests_cant": "models and requests are arbitrary", "anchors": ["berts/models/model_berts.hpp: eval", "berts/models/bert.cpp: build_graph", "berts/berts.cpp: berts_eval"]}
{"id": "C177", "title": "A refused evaluation says so in the log", "statement": "Whenever berts_eval returns false the log tells so; at INFO its last line is the closing one if and only if the call returned true.", "quantifier": "for all models, arithmetics, requests and levels", "why_tests_cant": "requests are arbitrary", "anchors": ["berts/models/model_berts.hpp: eval", "berts/models/log.cpp: log", "berts/berts.cpp: berts_eval"]}
{"id": "C178", "title": "What the language-model call writes at the default log level", "statement": "At the initial level berts_eval_lm writes exactly: nothing if the size is no multiple of the hidden size; else a line about a buffer that is given without the other, about the missing head, or about an activation the head does not know; it succeeds if and only if the size is a multiple and nothing was written.", "quantifier": "for all models with or without head, arithmetics, requests and buffers", "why_tests_cant": "models and requests are arbitrary", "anchors": ["berts/models/model_berts.hpp: eval_lm", "berts/models/bert.cpp: build_lm_graph", "berts/models/roberta.cpp: build_lm_graph", "berts/berts.cpp: berts_eval_lm"]}
{"id": "C179", "title": "A vocabulary with a repeated token is refused with a message", "statement": "Loading a vocabulary whose token list repeats a token returns false at every level and writes that the token already exists.", "quantifier": "for all token lists up to the first repetition, whatever follows, all settings and levels", "why_tests_cant": "token texts are arbitrary and go through printf", "anchors": ["berts/models/model_base.hpp: load_vocab", "berts/models/bert.cpp: add_token", "berts/models/log.cpp: log"]}
{"id": "C180", "title": "What loading a vocabulary writes at the default log level", "statement": "For a well-formed vocabulary without repetitions the log at the initial level consists of one line for every spelling tried for a special id that is not stored, in the order cls, mask, pad, sep, unk, and a last line exactly if loading fails; with all ids stored nothing is written.", "quantifier": "for all vocabularies, stored ids and flags of the right types", "why_tests_cant": "vocabularies and metadata are arbitrary", "anchors": ["berts/models/bert.cpp: vocab::init", "berts/models/bert.cpp: get_token_id", "berts/models/model_base.hpp: load_vocab"]}
{"id": "C181", "title": "Looking up tokens and ids is defined at every log level", "statement": "berts_token_to_id and berts_id_to_token return the entry, or the invalid id and the empty text, at every level; unknown ones are reported at DEBUG and INFO and never at the initial level.", "quantifier": "for all vocabularies, texts, ids and levels", "why_tests_cant": "the failing texts have a percent sign and need a lowered level", "anchors": ["berts/models/model_base.hpp: id_to_token", "berts/models/model_base.hpp: token_to_id", "berts/models/log.cpp: log"]}
{"id": "C182", "title": "The log of an evaluation tells its story", "statement": "For every level, what berts_eval with a model writes is the filtered list of: the opening lines; the first fault in the order token count, segments, pooling type; or the lines about the request followed by the closing line of a dry run, the fault of the layer, or, between the two lines with the address of the ggml context in 16 hexadecimal digits, the line about the context buffer and the closing line, respectively the line about the activation function. Nothing else is written.", "quantifier": "for all models with 32-bit sizes, arithmetics, requests, buffers and levels", "why_tests_cant": "requests and models are arbitrary", "anchors": ["berts/models/model_berts.hpp: eval", "berts/models/log.cpp: log", "berts/berts.cpp: berts_eval"]}
{"id": "C183", "title": "The log of the language-model call tells its story", "statement": "For every level, what berts_eval_lm with a model writes is the filtered list of the opening line, the fault of the size or the sizes line, and then the closing line of a dry run, the fault of the buffers, or, between the two lines with the address of the ggml context, the line about the context buffer with what the head reports, in this order.", "quantifier": "for all models, arithmetics, sizes, buffers and levels", "why_tests_cant": "sizes and models are arbitrary", "anchors": ["berts/models/model_berts.hpp: eval_lm", "berts/models/bert.cpp: build_lm_graph", "berts/models/roberta.cpp: build_lm_graph"]}
{"id": "C184", "title": "The log of the language-model call tells the hidden size", "statement": "At DEBUG the log of a successful berts_eval_lm tells the number of hidden states and the hidden size.", "quantifier": "for all models and sizes", "why_tests_cant": "the wrong argument order is visible only in log text", "anchors": ["berts/models/model_berts.hpp: eval_lm"]}
{"id": "C185", "title": "The log of loading a vocabulary at every level", "statement": "For every level, what a successful load of a BERT vocabulary writes is the filtered list of: the opening and count lines, the spellings tried for missing ids and those that are no tokens, one line for each special id with its text, the settings, the closing line. It is undefined exactly if the level is DEBUG or INFO and the text of a special token is no printf format.", "quantifier": "for all vocabularies, metadata and levels", "why_tests_cant": "vocabularies, ids and metadata are arbitrary", "anchors": ["berts/models/bert.cpp: vocab::init", "berts/models/model_base.hpp: load_vocab", "berts/models/log.cpp: log"]}
{"id": "C186", "title": "Logging does not change what is loaded", "statement": "berts_load_from_file returns the same model, null or abort whatever the log level and log file; logging can only make the call undefined, and only with a log file and a level of at most ERROR.", "quantifier": "for all files, paths, settings, levels and log files", "why_tests_cant": "files and log states are arbitrary", "anchors": ["berts/models/gguf.cpp: load_from_file", "berts/models/internal.cpp: model::init", "berts/models/log.cpp: log"]}
{"id": "C187", "title": "What loading reports at the default level", "statement": "At the default level loading writes exactly: a line if the file cannot be reopened or is cut off; the spellings tried for special tokens without id; a line for a repeated token, for vocabulary data that is too long, for an empty vocabulary or bad merges, and for the vocabulary or weights as a whole; and every refusal is reported.", "quantifier": "for all files of bytes with fewer than 2^32 tokens", "why_tests_cant": "files are arbitrary", "anchors": ["berts/models/gguf.cpp: load_from_file", "berts/models/model_base.hpp: load_vocab, init", "berts/models/bert.cpp: vocab::init", "berts/models/roberta.cpp: vocab::init"]}
{"id": "C188", "title": "The last line at INFO tells the result of loading", "statement": "At INFO the last line of the log names the step at which loading ended, with the value at fault for an unknown activation or model type; it is 'finish initializing weights' exactly if a model is returned.", "quantifier": "for all files, and for paths without line break if the file is no gguf", "why_tests_cant": "files are arbitrary", "anchors": ["berts/models/gguf.cpp: load_from_file", "berts/models/bert.cpp: weights::init", "berts/models/model_base.hpp: init"]}
{"id": "C189", "title": "Missing tensors are named", "statement": "At INFO the log names the first required tensor that is missing and nothing after it; of a file that is loaded it names exactly the head tensors that are missing.", "quantifier": "for all files", "why_tests_cant": "the set of tensors of a file is arbitrary", "anchors": ["berts/models/bert.cpp: weights::init", "berts/models/bert.cpp: get_tensor"]}
{"id": "C190", "title": "Tensors listed as unused are not needed", "statement": "When a model is loaded at INFO the tensors listed as unused, each with its number, are exactly those of the file that are neither a weight nor part of the vocabulary, so that the file without them loads as well.", "quantifier": "for all files that are loaded", "why_tests_cant": "the set of tensors of a file is arbitrary", "anchors": ["berts/models/bert.cpp: weights::init", "berts/models/roberta.cpp: vocab::init"]}
{"id": "C191", "title": "Names of files and tensors are printed literally", "statement": "Loading at INFO prints the path and the names of unused tensors as they are, whatever characters they contain.", "quantifier": "for all paths and tensor names", "why_tests_cant": "names are arbitrary", "anchors": ["berts/models/gguf.cpp: load_from_file", "berts/models/bert.cpp: weights::init", "berts/models/log.cpp: log"]}
{"id": "C192", "title": "The log of RoBERTa tokenization", "statement": "A berts_tokenize call on a RoBERTa model that succeeds is defined at every log level, gives the same ids, and writes exactly: at INFO each special id outside the vocabulary, the line 'tokenization start', and the mask id again if outside; at WARN and below one hint if the number of tokens, cls and sep included, exceeds max_position_embeddings. Calls that do not return, abort or are undefined are so at every level.", "quantifier": "for all loaded vocabularies of fewer than 2^32 tokens with cls and sep, texts, maxima, levels, regex engines and orders", "why_tests_cant": "vocabularies and texts are arbitrary", "anchors": ["berts/models/roberta.cpp: tokenize", "berts/models/model_base.hpp: id_to_token", "berts/berts.cpp: berts_tokenize", "berts/models/log.cpp: log"]}
{"id": "C193", "title": "Refusals by the RoBERTa tokenizer are reported", "statement": "When tokenizing with a RoBERTa model fails, the reason is written to the log at the default level.", "quantifier": "for all loaded vocabularies, texts, maxima, regex engines and orders", "why_tests_cant": "vocabularies and texts are arbitrary", "anchors": ["berts/models/roberta.cpp: tokenize", "berts/berts.cpp: berts_tokenize", "berts/models/log.cpp: log"]}
{"id": "C194", "title": "Logging does not change quantization", "statement": "berts_model_quantize returns the same value and leaves the same output file whatever the log level and log file; logging can only make the call undefined, and only with a log file and a level of at most ERROR.", "quantifier": "for all input files, paths, output devices, types, levels and log files", "why_tests_cant": "files and log states are arbitrary", "anchors": ["berts/models/quantize.cpp: berts_model_quantize", "berts/models/log.cpp: log"]}
{"id": "C195", "title": "Failures of quantization are reported", "statement": "When berts_model_quantize returns false it has written the reason to the log at the default level.", "quantifier": "for all input files, paths, output devices and types", "why_tests_cant": "files are arbitrary", "anchors": ["berts/models/quantize.cpp: berts_model_quantize, quantize", "berts/models/log.hpp: error"]}
{"id": "C196", "title": "The report of a quantization", "statement": "When berts_model_quantize succeeds at INFO it reports, after what loading reports, every tensor of the file in its order, each with whether it was converted (exactly the two-dimensional ones named ...weight), its dimensions and its sizes before and after, then the total of these sizes, and 'quantization completed'.", "quantifier": "for all files with distinct tensor names that are quantized, and all types", "why_tests_cant": "the tensors of a file are arbitrary", "anchors": ["berts/models/quantize.cpp: berts_model_quantize, quantize"]}
{"id": "C197", "title": "The last line at INFO tells whether quantization succeeded", "statement": "At INFO the last line of the log of berts_model_quantize is 'quantization completed' exactly if it returns true.", "quantifier": "for all files, types and output devices, and for paths without line break", "why_tests_cant": "files are arbitrary", "anchors": ["berts/models/quantize.cpp: berts_model_quantize"]}
{"id": "C198", "title": "INFO shows the settings of the file being loaded", "statement": "At INFO loading writes first the path, then the general information of the file (missing texts as empty, missing numbers as -1), the numbers of tensors and settings, the space the tensors need, and, if the tensors can be read, the settings of the model as they stand in the file, with the defaults for those that are missing.", "quantifier": "for all files that loading does not abort on, and all paths", "why_tests_cant": "settings and tensors are arbitrary", "anchors": ["berts/models/gguf.cpp: init_gg, load_from_file"]}
{"id": "C199", "title": "The log of loading a RoBERTa vocabulary", "statement": "Loading a RoBERTa vocabulary that is accepted writes, from INFO on, where ids that are not stored were looked for, the seven special ids after the exchange of missing ones, each with its token as stored, and a line for each id that is none; undefined if one of these tokens is no printf format.", "quantifier": "for all vocabularies, settings and merges that are accepted, and levels from INFO on", "why_tests_cant": "vocabularies are arbitrary", "anchors": ["berts/models/roberta.cpp: vocab::init", "berts/models/model_base.hpp: init_vocab, get_token_id"]}
{"id": "C200", "title": "The conversion buffers never leak or overflow", "statement": "Quantization converts all tensors in the same two growing buffers. Whatever the buffers held before, each conversion stays inside them, and the bytes written are those of the tensor at hand: the operations on the output and the descriptions are the ones a conversion with fresh memory for every tensor would give.", "quantifier": "for all lists of tensors that have the bytes their description says, target types, kernels that write whole blocks, and initial buffers", "why_tests_cant": "which stale bytes a buffer holds depends on all tensors before; overflow needs the worst case of every type", "anchors": ["berts/models/quantize.cpp: conv_buf, quantize, berts_model_quantize"]}
{"id": "C201", "title": "The histogram counts what was converted", "statement": "After the conversion bin i of the histogram holds the sum, over all converted tensors, of what the kernels counted for i. The summary shows the 16 shares if and only if the target is one of Q4_0, Q4_1, Q5_0, Q5_1, Q8_0 and at least one converted tensor has a whole block of 32 weights; otherwise there is no histogram.", "quantifier": "for all pools of tensors and target types, with kernels that count each weight of a whole block once for the five types and nothing for the others", "why_tests_cant": "needs all combinations of types and sizes of tensors", "anchors": ["berts/models/quantize.cpp: conv_buf, quantize, berts_model_quantize"]}
{"id": "C202", "title": "The output of quant tells what happened", "statement": "With a type that is named as the usage says, stdout of quant shows the two paths and the canonical name of the type, and its last line is \"done\" exactly if the conversion succeeded and \"fail to quantize model\" exactly if it did not, while the status is 0 both times. With other arguments nothing is converted, the status is 1 and stdout has the usage, which lists each offered type once, with a number and a name that are both accepted for it.", "quantifier": "for all arguments within the rules of C67 and all results of the conversion", "why_tests_cant": "arguments are arbitrary texts", "anchors": ["berts/examples/quant.cpp: main, show_usage, ftype_to_str"]}
{"id": "C203", "title": "quant and paths with a percent sign", "statement": "quant logs at all levels, and the log uses the input path as part of a printf format. So a path that is no format (such as 50%.gguf) makes the run undefined for every file and type, whatever messages of level DEBUG there are in between.", "quantifier": "for all input paths that are no format, files, types, and messages of level DEBUG in between", "why_tests_cant": "a path that happens to be harmless shows nothing", "anchors": ["berts/examples/quant.cpp: main", "berts/models/quantize.cpp: berts_model_quantize", "berts/models/log.cpp: write"]}
{"id": "C204", "title": "The output of fill_mask on success", "statement": "If fill_mask ends with status 0, stdout is the prompt, the ids of its tokens with the special ones, and one numbered line per result with token, id and score, in the order of the results, and nothing else; the tool writes only its greeting to stderr. For a model that is ready these results are the k most probable tokens.", "quantifier": "for all arguments, models and results of loading", "why_tests_cant": "models and prompts are arbitrary", "anchors": ["berts/examples/fill_mask.cpp: main"]}
{"id": "C205", "title": "fill_mask says why it stops", "statement": "Each way in which fill_mask ends with status 1 has its own text: wrong number of arguments (usage), k not positive, file not loaded, k larger than the vocabulary (with its size), prompt not tokenized, no or several masks, evaluation refused, no head for masks; stdout has what was known by then.", "quantifier": "for all arguments, models and results of loading", "why_tests_cant": "models and prompts are arbitrary", "anchors": ["berts/examples/fill_mask.cpp: main, show_usage"]}
{"id": "C206", "title": "Unknown words of a prompt reach printf in fill_mask", "statement": "fill_mask logs at level WARN, and the tokenizer of a BERT model reports each unknown word with a message that is used as a printf format. If all unknown words of the prompt are printable formats, the run has the status and stdout that it has without log, and stderr is the greeting, the reports of loading, one line per unknown word, a hint if there are too many tokens, the report of a refused evaluation, and the tool's own line. If one of them is not (such as %d), the run is undefined. If the file is not loaded, stderr is the greeting, the reports of loading and the tool's line.", "quantifier": "for all files that load with a BERT vocabulary, prompts that can be tokenized, arguments, and libraries", "why_tests_cant": "which words are unknown depends on the vocabulary; a prompt without percent sign shows nothing", "anchors": ["berts/examples/fill_mask.cpp: main", "berts/models/bert.cpp: tokenize", "berts/models/log.cpp: write"]}
{"id": "C207", "title": "The log never disturbs fill_mask with a RoBERTa model", "statement": "With a RoBERTa model the log at level WARN never changes what fill_mask does: status and stdout are those without log for every prompt, percent signs included. On success stderr has the greeting and the reports of loading, nothing else; on failure at most a hint about too many tokens and the report of a refused evaluation before the tool's own line.", "quantifier": "for all files that load with a RoBERTa vocabulary, prompts, arguments, and libraries", "why_tests_cant": "prompts are arbitrary texts", "anchors": ["berts/examples/fill_mask.cpp: main", "berts/models/roberta.cpp: tokenize", "berts/models/log.cpp: write"]}
{"id": "C208", "title": "Messages of level DEBUG change nothing else", "statement": "Loading and quantizing with the messages of level DEBUG (names of settings, description of each tensor, each tensor read and stored, merges, contexts taken and released) end as without them, and at every level from INFO on the log is byte for byte the one without them, with or without a file for the log.", "quantifier": "for all files, settings, levels and states of the log", "why_tests_cant": "needs every combination of files, results and levels", "anchors": ["berts/models/gguf.cpp: init_gg, load_from_file", "berts/models/bert.cpp: tensor", "berts/models/bpe.cpp: load_vocab", "berts/models/utils.hpp: unique_ctx", "berts/models/model_base.hpp: init_vocab"]}
{"id": "C209", "title": "At level DEBUG every name in a file is a printf format", "statement": "For a file whose metadata can be read, the log at level DEBUG is defined if and only if the log at level INFO is, all names of settings are printable formats, and all names of tensors are. So quant, which logs at that level, is undefined for every file with a setting or tensor whose name is no format (such as 100%), whatever the type and paths.", "quantifier": "for all files, names, types and paths", "why_tests_cant": "names are arbitrary texts, and the usual ones are harmless", "anchors": ["berts/models/gguf.cpp: init_gg, load_from_file", "berts/examples/quant.cpp: main", "berts/models/log.cpp: write"]}
{"id": "C210", "title": "Level DEBUG lists all settings and tensors", "statement": "The log at level DEBUG has, one after the other, a line for each setting with its number and name, and for each tensor its number, name, dimensions, bytes, bytes up to the alignment, and offset, in the order of the file; for a name that occurs twice dimensions and sizes are those of its first tensor, the offset its own.", "quantifier": "for all files whose names have no percent sign", "why_tests_cant": "lists of any length; repeated names", "anchors": ["berts/models/gguf.cpp: init_gg"]}
{"id": "C211", "title": "Level DEBUG shows that a load keeps its contexts", "statement": "Of the contexts whose taking and disposal the log at level DEBUG shows, a load disposes of all if it fails before the model is made; if it fails later or succeeds, it disposes only of the one of the metadata, so those of the file and of the tensors are never released. The same holds of a whole quantization, which disposes of the model and of its own context.", "quantifier": "for all files, settings, texts and addresses", "why_tests_cant": "the messages depend on which of the ways out of the function is taken", "anchors": ["berts/models/gguf.cpp: load_from_file", "berts/models/utils.hpp: unique_ctx", "berts/models/quantize.cpp: berts_model_quantize", "berts/models/internal.cpp: berts_context"]}
{"id": "C212", "title": "The log tells which calls need a context of the tensor library", "statement": "A call of berts_eval or berts_eval_lm on a model takes an entry of the tensor library's table of contexts if and only if its log at level DEBUG has the message that a ggml context was made: the limits on tokens, segments, pooling type, layer and size hold and output buffers are given. Dry runs and refused calls take none.", "quantifier": "for all models, arguments and buffers", "why_tests_cant": "the limits depend on all settings of the model and on each argument", "anchors": ["berts/models/model_berts.hpp: eval, eval_lm", "berts/models/utils.hpp: ggml_ctx", "berts/berts.cpp: berts_eval, berts_eval_lm"]}
{"id": "C213", "title": "The DEBUG messages of RoBERTa tokenization change nothing else", "statement": "Tokenizing with a RoBERTa model with the messages of level DEBUG (parts of the prompt, words, ids, merges, special tokens) returns the same and writes the same messages from INFO on as without them; at every level from INFO on the log is byte for byte the one of C192 and C193.", "quantifier": "for all vocabularies, prompts, limits, regex results, orders of the queue and of the special tokens", "why_tests_cant": "the messages are built from merge orders, cache hits and prompt parts that a test samples", "anchors": ["berts/models/roberta.cpp: tokenize", "berts/models/bpe.cpp: tokenize, merge", "berts/berts.cpp: berts_tokenize"]}
{"id": "C214", "title": "At level DEBUG the parts of a RoBERTa prompt in the log make up the prompt, and the prompt is a format", "statement": "When berts_tokenize at level DEBUG on a RoBERTa model is defined, the lines after \"subtexts:\" show parts that together are what printing the prompt as a printf format gives (every %% shown as %). A prompt that has a conversion is undefined behaviour at this level, whatever the vocabulary, though it is tokenized at the default level.", "quantifier": "for all vocabularies with cls and sep ids and all prompts without NUL", "why_tests_cant": "the split into parts depends on the vocabulary; undefined behaviour need not show in a test", "anchors": ["berts/models/roberta.cpp: tokenize", "berts/models/log.cpp: write", "berts/berts.cpp: berts_tokenize"]}
{"id": "C215", "title": "The merges in the log of byte-pair encoding can be replayed", "statement": "At level DEBUG a word that is not in the cache is written with the ids it begins with (those of its characters) and one line per merge. Replaying these merges in order - each takes two neighbouring ids the merge table joins and puts the table's id in their place - leads from these ids to the ids of the tokens put out, so there are as many lines as ids are lost. A word of the cache, or an empty one, is named without ids and merges.", "quantifier": "for all merge tables, vocabularies, words, caches, dropout choices and orders of equal entries of the queue", "why_tests_cant": "merge order and stale queue entries depend on table and word; reports of merges not made show only for some of them", "anchors": ["berts/models/bpe.cpp: tokenize, merge", "berts/models/bpe.hpp: bpe"]}
{"id": "C216", "title": "A RoBERTa prompt without percent sign that is tokenized is safe to log at level DEBUG", "statement": "When berts_tokenize on a RoBERTa model returns tokens for a prompt without percent sign, everything it writes at level DEBUG - parts of the prompt, words in their byte spelling, ids, merges, special tokens, warnings - is printed as it is; no token of the model can bring a conversion into the log.", "quantifier": "for all vocabularies, merge tables, prompts, regex results and limits", "why_tests_cant": "the messages show text that went through UTF-8, UTF-16, blank stripping, regex splitting and the byte table; one of them bringing in a percent sign shows only for some inputs", "anchors": ["berts/models/roberta.cpp: tokenize", "berts/models/bpe.cpp: tokenize, merge", "berts/models/unicode.cpp: rstrip, regex::split", "berts/models/log.cpp: write"]}
{"id": "C217", "title": "The extents of tensors do not influence loading", "statement": "Two model files that differ in nothing but the extents of tensors - each tensor keeps its name, type, number of dimensions, position and number of elements, in rows of whole blocks - load alike: both fail the same way, or both load with the same vocabulary and the same settings. A weight whose rows and columns are exchanged is never noticed by loading.", "quantifier": "for all files, tensor types, extents and tensor libraries", "why_tests_cant": "a test has some files with some wrong shapes", "anchors": ["berts/models/gguf.cpp: load_from_file", "berts/models/bert.cpp: weights::init", "berts/models/internal.cpp: new_context"]}
{"id": "C218", "title": "The order and places of tensors in the file do not influence loading", "statement": "Two model files with the same settings and the same tensors - same names, types, extents and data - load the same model, or end the same way, in whatever order the tensors are listed and wherever in the file their data lie. The names are distinct and shorter than 64 bytes, and the data of all tensors but the last listed lie inside the file.", "quantifier": "for all files, orders and places of tensors, tensor libraries, and whether or not the file can be opened a second time", "why_tests_cant": "a test has some files made by one converter, which lists the tensors in one order", "anchors": ["berts/models/gguf.cpp: load_from_file", "berts/models/bert.cpp: weights::init", "berts/models/internal.cpp: new_context"]}
{"id": "C219", "title": "Of several tensors with one name only the first counts", "statement": "A model file in which a name is given to several tensors loads exactly like the file without the later tensors of each name: the same model, or the same failure. The later ones may have any type, extents and data; they are read, but nothing looks at them. Names are shorter than 64 bytes and both files can be read.", "quantifier": "for all files, numbers and kinds of repeated tensors, tensor libraries, and whether or not the file can be opened a second time", "why_tests_cant": "converters do not write a name twice, so tests have no such files", "anchors": ["berts/models/gguf.cpp: load_from_file", "berts/models/bert.cpp: weights::init", "berts/models/internal.cpp: new_context"]}
