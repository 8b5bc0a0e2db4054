# Formal model of berts.cpp: design and trusted base

This directory holds a Rocq (Coq 8.16.1) model of the library in `/repo` and
machine-checked theorems about it. The code itself is never run or built here:
every definition of the model cites the file and lines it was read from.

## Layout

- `properties.jsonl`: the properties, in terms of the API and observable effects.
- `rocq/theories/X_model.v`: the model of one component. Only definitions, each with a citation.
- `rocq/theories/X_spec.v` (some early specifications are in `X_proofs.v`): what the
  component is meant to do, written without the model's helpers.
- `rocq/theories/X_proofs.v`: lemmas.
- `rocq/theories/P_X.v`: the property theorems, `Print Assumptions` beneath each, and
  `Example`s that show the hypotheses are met by non-trivial cases.
- `MANIFEST.json`: which theorem settles which property.
- `seeded/LOG.jsonl`: mutation log (bugs seeded in the model and what caught them).

A property that is false of the code has a theorem `..._refuted` with a witness and
theorems that say exactly when the statement holds (or the part that does hold, `_partial`);
its status in the manifest is `partial`.

## Trusted base

1. **Coq's kernel** (8.16.1). `vm_compute` and `native`-free reduction only; no kernel check
   is switched off; no plugin beyond those of the standard distribution.
2. **Axioms**: `Print Assumptions` stands under every property theorem and prints
   `Closed under the global context` for every one of them except those of `P_Real.v`
   (C146-C151) and `P_Symmetry.v` (C169-C171), which speak about Coq's real numbers and depend on the axioms of that part
   of the standard library: `ClassicalDedekindReals.sig_not_dec`,
   `ClassicalDedekindReals.sig_forall_dec`,
   `FunctionalExtensionality.functional_extensionality_dep`, and for
   `C151_padding_ignored_refuted` also `Classical_Prop.classic`. Only Coq's standard
   library is imported (List, Arith, NArith, ZArith, Lia, Bool, Ascii, String, Permutation, Relations, FinFun,
   Sorted, and in `Real_*.v`, `P_Real.v`, `Symmetry_*.v`, `P_Symmetry.v` Reals and Lra).
3. **The reading of the code**: that the definitions in `*_model.v` describe the cited
   lines. They were written by hand; there is no extraction from C++ or Python. Simplifications are
   listed in "What is modelled" below and in the comments of the definitions.
4. **The reading of the libraries** the code calls: where a library's behaviour matters it is
   either a universally quantified parameter (nothing assumed beyond the hypotheses in the
   theorem) or a definition written from its documentation:
   - ggml (the submodule is empty; the semantics of December 2023 are used): shapes,
     strides, element-wise meaning and preconditions of the operations the code calls
     (`Ggml_model.v`); the table of types, block and type sizes (`Loader_model.v`);
     `gguf_*` writer functions (`Quantize_model.v`) and reader (`Gguf_model.v`). Arithmetic on elements and the sizes
     of its structures are parameters. A failed `GGML_ASSERT` is `Abort`. Running out of
     a context's memory is `UB`. `ggml_can_repeat` divides by the extents: zero is `UB`.
   - for most theorems a file is the record `gguf_init_from_file` returns (settings, tensor
     descriptions, data offset) with the bytes of the file; `Gguf_model.v` writes the reader out
     byte by byte, and C115-C129 are about bytes.
   - ICU: `U8`/`U16` conversion as in the standard (`Utf_model.v`); character classes, normalisation,
     case mapping and the regular expression engine are parameters.
   - the C and C++ libraries: `std::stoi`, `std::from_chars`, `toupper` and `isspace` in the "C"
     locale, `fprintf` format scanning,
     `std::priority_queue` by its contract (any maximal element), hash tables by any iteration order,
     streams by an arbitrary oracle of failing writes.
   - the C ABI assumed: 8-bit bytes, little-endian, plain `char` signed, 64-bit `size_t`, 32-bit
     `int`; the release flags of the Makefiles (`-DNDEBUG`).
5. **Floating point** is abstract: an arbitrary type of values with arbitrary operations (`prim`).
   A theorem such as C91 says the code composes these operations as the BERT definition does;
   it says nothing about rounding. `-Ofast` reassociation is outside the model.

## Conventions of the model

- C++ functions become total Gallina functions. A function that can hit undefined
  behaviour returns an `outcome`: `Ok`, `Fail` (returned false / null), `UB`
  (undefined behaviour reached) or `Abort` (process ended by an assertion or an
  uncaught exception).
- Loops that are not structurally recursive take fuel and return a separate
  out-of-fuel value; the theorems show it is never returned (or, for a
  non-terminating loop, that it is returned for every amount of fuel).
- Integers are unbounded `Z`/`N`/`nat` unless the property is about overflow; hypotheses
  such as "fewer than 2^32 tokens" say where 32-bit types matter.
- Memory of the caller is explicit (the cells of the object behind a pointer); memory from `new[]`
  has arbitrary contents (`junk`).
- Random numbers, hash-table iteration order, regex engine, Unicode tables,
  quantization kernels and numeric tensor contents are universally quantified
  parameters. What is assumed of each is a hypothesis in the theorem.

## What is modelled, and what is not

| File in /repo/berts | Modelled in | Left out |
|---|---|---|
| `models/unicode.hpp`, `models/unicode.cpp` | `Utf_model.v` (encodings, `each_cp`, `lstrip`, `rstrip`, `regex::split`), `Ustr_model.v` (the string class at buffer level, object lifetimes), `Pattern_model.v` (`regex::test`, the meaning of regular expressions), `Icu_model.v` (the error field of strings, conversions, `encode`, normalization and case mapping as pairs of ICU calls, lifetimes of `regex`, `category`) | `ustr::bytesize` |
| `models/trie.cpp` | `Trie_model.v` | |
| `models/bert.cpp` (tokenizer, vocabulary) | `Bert_model.v`, `Vocab_model.v`; log lines: `Says_model.v` | log lines about ICU errors |
| `models/bert.cpp`, `models/roberta.cpp` (graphs, memory estimates) | `Encoder_model.v` on `Ggml_model.v` | tensor names other than the result's, `BERTS_DEBUG` blocks |
| `models/bert.cpp` (`weights::init`) | `Loader_model.v`; log lines: `Says_load_model.v`, with DEBUG: `Says_debug_model.v` | |
| `models/roberta.cpp` (tokenizer, vocabulary) | `Roberta_model.v`; the word pattern: `Pattern_model.v`; log lines of the vocabulary: `Says_load_model.v`, with DEBUG: `Says_debug_model.v`, of the tokenizer: `Says_roberta_model.v`, with DEBUG: `Says_rdebug_model.v` | lines of `unicode.cpp` about ICU errors |
| `models/bpe.hpp`, `models/bpe.cpp` | `Bpe_model.v`; log lines of tokenizing: `Says_rdebug_model.v` | |
| `models/model_base.hpp` | `Vocab_model.v`, `Loader_model.v`; log lines of the vocabulary: `Says_model.v`, of the whole: `Says_load_model.v` | other logging |
| `models/model_berts.hpp` | `Eval_model.v`; log lines: `Says_eval_model.v` | thread count (the result does not depend on it: part of the reading of ggml) |
| `models/internal.cpp`, `models/internal.hpp` | `Loader_model.v`, `Eval_model.v`, `Handle_model.v` | |
| `models/gguf.cpp`, `models/gguf.hpp` | `Loader_model.v`, `Gguf_model.v`; log lines of loading: `Says_load_model.v`, with DEBUG: `Says_debug_model.v` | the block under `#if 0`; `type_to_str` beyond the label of C99 |
| `models/quantize.cpp` | `Quantize_model.v`; its buffers and histogram: `Qbuf_model.v`; log lines: `Says_quantize_model.v` | what the kernels count and texts of numbers with decimals (parameters); the kernels of `ggml_quantize_chunk` (parameter) |
| `models/log.cpp`, `models/log.hpp` | `Log_model.v` | `std::vformat` itself (the text is a parameter) |
| `models/utils.hpp` | `Handle_model.v`, `Says_eval_model.v` (the messages of `ggml_ctx`), `Says_debug_model.v` (those of loading) | messages when the caller frees the context |
| `models/convert_hf_to_gguf.py` | `Vocab_model.v` (vocabulary), `Roberta_model.v` (merges), `Convert_model.v` (the rest) | argument parsing, downloading, text printed; an activation that is not a text |
| `berts.cpp`, `berts.h`, `berts.hpp` | `Api_model.v`, `Eval_model.v`, `Log_model.v`, `Loader_model.v`, `Cpp_model.v` (C++ overloads, initial settings, `berts_arch`); calls in sequence and in several threads: `Session_model.v` | version numbers; `berts::model_quantize`, which forwards to the C function |
| `examples/quant.cpp` | `Tool_model.v`; text printed: `Tool_text_model.v` | texts of numbers with decimals (parameter) |
| `examples/fill_mask.cpp` | `Fill_model.v`; text printed: `Fill_text_model.v`; with the log on stderr: `Fill_log_model.v` | texts of scores (parameter); messages of `berts_id_to_token`, all below WARN |
| `tests/` | `Repo_tests.v`: the assertions of test_trie, test_bpe, test_uregex and part of test_unicode hold in the model (a check of the model, not of the properties) | tests that need a model file or ICU's tables |
| `models/memo.txt`, Makefiles | no | |

Component notes (more in the comments):

- *ICU calls* (`Icu_model.v`): what the two-step calls leave in sizes and error fields. Trusted
  about ICU: a function does nothing if it is given an error; a result that fits without a
  terminating zero is a warning, one that does not fit is `U_BUFFER_OVERFLOW_ERROR`; ill-formed
  text is an error without a size; null sources (case mapping), equal source and destination
  (normalization) and empty patterns are refused. The mappings themselves are parameters.
- *Exact arithmetic* (`Real_spec.v`): everywhere else the arithmetic of tensors is an
  arbitrary parameter; `exact` says what the operations mean over the reals (GELU, ReLU, SiLU
  stay arbitrary). C146-C151 and C169-C171 are therefore statements about the computation without rounding;
  floating-point rounding, overflow and NaN are not modelled.
- *Ggml*: building a graph and running it are one step; each tensor has at most one writer, so
  the value of a node does not depend on when it is computed. Row look-ups and node counts
  are recorded so that out-of-range look-ups and the node limit are visible.
- *Encoder*: the constant of the layer norms is carried as the bits of the double; making it a float is
  part of the arithmetic (`p_norm`). `size_t` wrap-around happens in one place only (the estimate of the head); biases are
  F32 as `ggml_add` demands.
- *Loader*: a file is what `gguf_init_from_file` returns (see *Gguf*); sizes do not wrap; operator new
  does not fail.
- *Quantize*: `ggml_quantize_chunk` returns 0 for types it does not know (under `NDEBUG`); the output is
  aligned to 32 bytes whatever the input says. `reread` is what the gguf reader makes of the
  written bytes; C117 proves it for `Gguf_model.v`.
- *Gguf*: counts and sizes are exact (no wrap-around of `size_t`), memory does not run out; a file that
  ends inside the pairs is refused (the library looks at an unread type code first).
- *Convert*: what the script gets from transformers (configuration, tokenizer, state dictionaries) is a record;
  numpy's conversions to 4 and 2 bytes are parameters; `GGUFWriter` is that of December 2023 (padding to 32,
  extents reversed, empty strings not written, the file opened and emptied by the constructor).
- *Pattern*: the regular expression of roberta.cpp is written as a term; what the operators mean is the documented
  behaviour of ICU's engine (backtracking, ordered alternatives, greedy repetition, code points), which is trusted.
  The classes \p{L}, \p{N}, \s are parameters with the few facts listed in `classes`. Theorems from before (C25-C32, C133)
  hold for any engine that reports ordered matches.
- *Log*: the global level and stream are the state; other threads are not modelled.
- *Handle*: one thread.
- *Session*: threads interleave at the uses of the tensor library's table of contexts (`ggml_init` hands out
  one of 64 entries under a lock or returns null, `ggml_free` gives it back); that a loaded model is only read
  by tokenization and evaluation (all members are reached through const references, the BPE cache is local to a
  call, `ggml_graph_compute` writes only to tensors of the call's own context) is part of the reading. A null context in
  `gguf_init_from_file` and in the graph builders is `UB`; in `load_from_file` it is checked.

## Plan per property

- **C01** Exact vocabulary search is the vocabulary. Trie model (inductive trie over UTF-16 units); theorem by induction over the inserted list against `index of s in vocab`.
- **C02** Greedy search returns the id of the longest matching entry. Same model; spec = longest prefix of the query that is in the vocabulary list.
- **C03** Greedy search splits the query without losing text. Same model; append equation by induction on the query.
- **C04** The reported matched part is the entry whose id is returned. Expected false: witness {a, abc} / 'abd'. Also the exact condition under which it holds.
- **C05** WordPiece is greedy longest-match-first. Model of wordpiece_tokenize with its `root` variable; spec = recursive greedy segmentation over the plain vocabulary list.
- **C06** Words are tokenized independently of their neighbours. Expected false: witness with a word that becomes unknown after its first piece. Also: holds when no word before is unknown mid-word.
- **C07** Subword stage terminates and emits only vocabulary ids. Fuel-free termination: the model carries fuel = length of the rest and the theorem says it is never exhausted.
- **C08** Text cleaning and word splitting keep exactly the visible characters in order. Model of clean_text_and_split on code points with flags and classification as parameters; spec = filter/split.
- **C09** Characters kept by cleaning are not altered. Expected false: witness U+F0041 becomes 'A'. Also proved for code points below 0x10000, and exactly: unaltered iff no kept character above U+FFFF is a control character or white space (by counting the units of the words).
- **C10** Punctuation splitting partitions the word. Model of the punctuation loop; spec by concat + local conditions.
- **C11** Lower-casing keeps the text. Model of to_lower's sizing call with ICU's overflow convention; expected false for every non-empty word.
- **C12** BERT token sequences are bracketed and in range. Composition of the previous models.
- **C13** Tokenize buffer contract. Model of berts_tokenize with explicit memory (option buffer).
- **C14** id-to-token buffer contract. Model of berts_id_to_token with explicit memory.
- **C15** Lookup with no model reports 'invalid id'. Model of the guarded getters; expected false for berts_token_to_id.
- **C16** Vocabulary written by the converter is read back exactly. Model of write_vocab's encoder and init_vocab's decoder; round trip by induction.
- **C17** A loaded vocabulary is a bijection. Invariant of add_token over any sequence of tokens.
- **C18** Vocabulary loading stays inside the file's data. Decoder model with out-of-bounds as a distinct outcome; expected false; proved for consistent lengths.
- **C19** Special ids come from the file, else from the vocabulary. Model of get_token_id and both vocab::init heads as decision functions.
- **C20** Special ids name vocabulary entries. Expected false; witness file.
- **C21** Code point iteration inverts UTF-16 encoding. Model of each_cp as a state machine over 16-bit units; spec = inductive relation / UTF-16 encoding function.
- **C22** String comparison is a total order consistent with equality. Model of ustr values (null or buffer, size possibly indeterminate); laws.
- **C23** starts_with / ends_with test prefix and suffix. memcmp modelled on little-endian bytes; expected false; exact characterisation proved.
- **C24** lstrip / rstrip remove exactly the outer whitespace. Model of lstrip/rstrip over each_cp; spec by maximal run.
- **C25** Regex splitting partitions the text. Model of the loop over an arbitrary list of matches.
- **C26** The byte alphabet is unambiguous. Finite table of 256 entries lifted to all byte strings by induction.
- **C27** id-to-token inverts token-to-id for RoBERTa. Expected false; proved for bytes below 0x7f (and the exact set of bytes).
- **C28** RoBERTa accepts every UTF-8 text. Signed char indexing modelled on a plain-char-signed target with out-of-range as UB; expected false; proved for 7-bit text.
- **C29** Special-token splitting preserves the text. Model of the splitting loop; iteration order = any list.
- **C30** Special-token splitting does not depend on set iteration order. Proved when no special token is a proper prefix of another; refuted otherwise; `C30_order_iff` shows the condition is also necessary.
- **C31** RoBERTa tokenization terminates. Proved when all special tokens are non-empty; non-termination proved for an empty one (no fuel suffices).
- **C32** RoBERTa tokenization is lossless on 7-bit text. Composition over all the above models.
- **C33** BPE merging terminates and stays in bounds. Queue + doubly linked list model with UB for out-of-range access and fuel; invariant proof, fuel bound.
- **C34** BPE is lossless. Invariant: concatenation of live token strings constant.
- **C35** The priority-queue merge equals canonical BPE. Refinement to the naive merge function, invariant on stale entries.
- **C36** Every dropout outcome is a legal segmentation; dropout 1 merges nothing. Reachability relation.
- **C37** The BPE cache is invisible. Induction over call histories.
- **C38** Unknown characters become unknown tokens. Direct spec of symbol list.
- **C39** Loading merges: ranks are positions, inconsistent tables are rejected. Induction over the merge list.
- **C40** clear() empties the BPE model. Expected false; witness history.
- **C41** berts_eval validates its request. Decision function with outcomes.
- **C42** Output layer numbering. lia.
- **C43** berts_eval buffer contract. Explicit memory.
- **C44** A successful dry run predicts success. False; witness layer n+1. `C44_dry_run_iff` gives the exact condition.
- **C45** Embedding look-ups stay inside the tables (BERT). Positions and segments proved; token ids refuted.
- **C46** RoBERTa position ids. Induction over tokens.
- **C47** RoBERTa position look-ups stay inside the table. Expected false; exact condition proved.
- **C48** Encoder memory estimate covers the graph. Allocation trace of build_graph as a list of tensor shapes; sums compared for all parameters.
- **C49** LM head memory estimate covers the graph. Same for the LM graph.
- **C50** The encoder graph is shape-correct. Shape semantics of the ggml operations used; symbolic execution for all sizes.
- **C51** LM evaluation shape contract. Decision function.
- **C52** Top-k output is the k most probable tokens with their probabilities. Sorting as permutation + order of an arbitrary sort routine.
- **C53** LM evaluation respects the output buffers. Expected false; two witnesses; proved under guard.
- **C54** Without top_k every id comes with its own probability. Expected false; witness.
- **C55** Loader memory estimate covers all tensors. Sum over tensors.
- **C56** Loading outcome table. Decision function over key sets.
- **C57** Weights: all required tensors or nothing. Induction over layers.
- **C58** Scoped resources are released exactly once. State machine, induction over operation sequences.
- **C59** berts_free releases everything the context owns. Expected false; ownership model of load/free.
- **C60** Log levels filter monotonically. State machine.
- **C61** Errors are visible at the default level. Expected false for formatted errors.
- **C62** Logging user text is safe. printf format scanning; expected false, safe when no %.
- **C63** Quantization selects exactly the 2-D weights. Model of the tensor loop.
- **C64** Quantized file layout is self-consistent. File model (bytes, offset writes).
- **C65** An interrupted quantization never looks like a valid model. Every prefix of the write sequence.
- **C66** A reported success means a complete file. Expected false; write oracle.
- **C67** Quantizer command line. parse_ftype model; exit status refuted.
- **C68** The converter writes each token once. Model of the filler loop.
- **C69** Merge table survives conversion. Round trip.
- **C70** fill_mask stays inside its buffers. Fill model with the prompt-sized token buffer; expected false; witness text and exact condition.
- **C71** WordPiece and greedy segmentation. Expected false: the search tree keeps a longest match that leads to a dead end.
- **C72** Unknown words. Expected false: leading pieces stay. The exact condition follows from C143.
- **C73** Strings behave like values. Heap model of the string class; simulation against independent variables, induction over programs.
- **C74** Default construction. Expected false: indeterminate size field.
- **C75** No leaks. Expected false; count of live blocks, exactly, by simulation with the list-valued strings.
- **C76** UTF-8 round trip. Strict decoder; induction.
- **C77** A second merge list. Induction over the lists; `C77_ranks_exact` gives the ranks with repetitions.
- **C78** Short unknown token. Expected false; witness queue order.
- **C79** Arbitrary bytes. Expected false: optional without a value.
- **C80** Unusable vocabulary. Expected false.
- **C81** Special token as a word. Expected false after a dead end; condition proved.
- **C82** Whitespace separates. Induction over the text.
- **C83** Whole tokenizer. Composition of C05, C08, C10, C12.
- **C84** Every accepted vocabulary loads. Expected false for the empty token.
- **C85** Order of merges. Expected false: rank column not read.
- **C86** RoBERTa answers 7-bit text. Composition; step bound.
- **C87** Layers out of range. Expected false for INT64_MIN (negation overflows).
- **C88** Zero tokens. Expected false.
- **C89** Node limit. Count of graph nodes for all layer numbers.
- **C90** RoBERTa positions vs. the reference. Expected false at padding.
- **C91** berts_eval computes the encoder. Refinement of the graph against a row-wise specification of BERT, induction over layers.
- **C92** berts_eval_lm computes the head. Same for the head.
- **C93** Head count. Reshape precondition fails.
- **C94** Activation. Every other activation fails before values are written.
- **C95** No head. Decision function.
- **C96** Null segments. Equality of calls.
- **C97** Truncated files. Expected false for the last read; proved for the others.
- **C98** Loading is defined. Expected false (long names); classified otherwise.
- **C99** Label of a quantized file. Table comparison over all types.
- **C100** Shapes checked. Expected false.
- **C101** Settings. Inversion of the loader.
- **C102** File to result. Composition of loader and C91/C92.
- **C103** Conversion buffer. For all tensors.
- **C104** Offered types. All types, one refuted.
- **C105** No model, no file. Decision function.
- **C106** Quantized model evaluates converted rows. Composition of writer, reader, loader, encoder.
- **C107** Bits per weight. Table against block sizes.
- **C109** fill_mask prints the k best. Composition of the API models along the tool; specification `printed`.
- **C110** k argument. Model of std::stoi against a grammar of numbers; expected false (exception type).
- **C111** One mask. Scan against `only_at`.
- **C112** Exit status. Inversion of the tool.
- **C113** Token texts fit. Invariants of loaded vocabularies.
- **C114** File to printed lines. Composition of loader, tokenizer, C91, C92, C52 and the tool.
- **C115** Written files are read back. A parser lemma per production of the format, by induction over the pairs and descriptions.
- **C116** Truncated files are refused. Every production consumes a prefix, ignores what follows and fails on every proper prefix of what it consumed.
- **C117** Quantization from bytes to bytes. C63/C64/C106 composed with C115; what was read is well formed, hence can be written.
- **C118** Unfinished quantization. C65 with C116; false for a last write that stops after the version number.
- **C119** Duplicate keys. Expected false: `gguf_find_key` takes the first, `gguf_set_kv` overwrites. In general: looking a key up in the copy is looking it up in the reversed list.
- **C120** A converted checkpoint is a readable model file. `read_converted`: the writer of gguf-py refines the writer of `Gguf_model.v`, so C115 applies.
- **C121** A converted BERT checkpoint loads with its vocabulary. C16's round trip at the file level; `loadable` of Loader_spec.
- **C122** A converted RoBERTa checkpoint loads with its vocabulary. The same with merges and the loader of Roberta_model.
- **C123** Conversion rounds weight matrices only. Induction over the state dictionaries.
- **C124** A converted checkpoint evaluates to the checkpoint's encoder. C120-C123 give the rows of the file; then C102 and C91.
- **C125** A converted checkpoint fills masks with its own probabilities. C124 and C114.
- **C126** A failed conversion leaves what was there. Expected false for earlier models; the rest proved.
- **C127** Whatever the converter accepts, the loader accepts. Expected false: relu.
- **C128** Conversion keeps the extents of parameters. Expected false: intermediate size 1.
- **C129** Without basic tokenization words are left alone. Expected false.
- **C130** Threads do not disturb each other. Small-step interleaving; invariant "what a thread was told is what it is told alone" with a count of the entries held, induction over schedules.
- **C131** Loading and freeing any number of times. Expected false (C59 leaks a context); exact description by a specification with limited room.
- **C132** Concurrent calls stay defined. Expected false with one entry left.
- **C133** RoBERTa tokenization is byte-level byte-pair encoding. Relational specification (Rtext_spec); C35's canonical merging for the loaded rules, then induction over words and parts; uniqueness by functionality of each relation.
- **C134** A converted RoBERTa tokenizer encodes like the original merges. C122 and C69 feed C133.
- **C108** A RoBERTa checkpoint fills masks with its own probabilities. C134, C124 and C109.
- **C135** The C++ and the C interface evaluate alike. Unfolding, for arrays longer than the count as well.
- **C136** A freshly initialised request means the pooled first token of the last layer. C91; expected false without layers.
- **C137** Pooled results are functions of the unpooled result. C91 twice, with the shape of the states from the graph proof.
- **C138** Later layers do not influence an earlier layer's result. C91 twice.
- **C139** berts_arch tells the architecture the file declares. Inversion of loading.
- **C140** A converted checkpoint, quantized, evaluates on its parameters in blocks. The converter's file meets every condition of C117 (distinct keys and names, known types, alignment 32, float weights in whole blocks); the rows of the quantized file are read back parameter by parameter.
- **C141** Masks filled by the quantized checkpoint, for both classes. C140's parameters, the unchanged vocabulary of C117, and C114 / the RoBERTa lines of C108.
- **C142** WordPiece for every word. `word_run`/`text_run` in Wp_spec.v mention only the vocabulary list; existence by the search lemma below a path, uniqueness of the run, hence an equivalence.
- **C143** Agreement with the reference, as an equivalence: a run that skips characters cannot put out the ids of the whole word, because ids determine entries and so lengths.
- **C144** Independence, as an equivalence: for the 'only if' direction a distinguishing word is found in every vocabulary (the shortest `##x`, or `##` itself).
- **C145** Tokenization of every text, generalising C83 to every word, to accent stripping and to settings without punctuation splitting; with a totality theorem.
- **C146** Softmax rows are distributions; the best k of a distribution hold at least their share (each of them is at least every other entry), at most 1.
- **C147** C109's lines with C146's lemma.
- **C148** tanh; C91.
- **C149** A normalised value is at most sqrt(n): its square is one summand of n times the variance. The row before the norm is no longer than the bias.
- **C150** `s_layer x = map (layer_row x) x` with `layer_row x` invariant under permutations of x (sums are); so all layers are one function mapped over the placed tokens, and the placed tokens of both requests are permutations of each other.
- **C151** Refuted by a model with hidden size 2: tanh(3/5) against tanh(3/10).
- **C152** `s_embed` is a map over (position, token, segment), and the positions of a prefix are a prefix of the positions.
- **C153** `word` describes the first word without regular expressions; the pattern's first success is shown to be that word case by case (the rests of a greedy run are computed in closed form), then induction over the words; UTF-16 positions by cutting the groups of units as the characters are cut.
- **C154** C133 with the engine replaced by the pattern; on 7-bit texts units are characters.
- **C155** A word of a text that is followed by a blank is a word of the longer text; the cut at special tokens joins the last and first ordinary parts; uniqueness (C154) finishes.
- **C156** `In s' (matches r s) <-> accepts r s s'` by induction over the expression; the search by induction over fuel.
- **C157** `holds` relates an object to a text and a condition; each operation preserves it, so runs agree by induction.
- **C158** On programs that stay within well-formed text the condition stays `Fine`; concatenation keeps text well-formed.
- **C159** Refuted by `to_lower(a, b); a.encode()`; the exact outcome follows from C157's relation.
- **C160** The second call is computed for both cases; in place, source and destination are one non-null pointer, which ICU refuses.
- **C161** The size query fails for every non-empty result; computed for each reachable state.
- **C162** Invariant `tidy`: patterns below the counter are closed once or held by one variable.
- **C163** The table is checked entry by entry; characters are arbitrary.
- **C164** As C160, for different objects.
- **C165** C134 with the modelled pattern as the engine; `text_iff` turns the engine's matches into words.
- **C166** C108 and C141 with the modelled pattern; the room for the ids follows from C133.
- **C167** `read_tensors` looks at the file through the regions only; appended bytes by `read_prefix`.
- **C168** The head's specification maps over the rows; `top_k_run` spells out what a call writes.
- **C169** `softmax_order`, `softmax_shift`.
- **C170** The key bias adds the same number to the scores of all keys (`attend_bias`), which the softmax drops.
- **C171** `norm_shift`: mean and variance of a shifted row.
- **C172** The messages of a call are a second function of the same inputs (`*_says`); `calls` of
  `Log_model.v` turns them into bytes. Specification: the relation `log_of` filters and formats the
  lines, `hears` relates pieces of text to WordPiece hits and misses. Trace of the tokenizer equals
  the specified messages (`tokenize_trace`).
- **C173** Filter of the messages at level 2; refutation by a text with a percent sign.
- **C174** Messages without percent sign are formats of themselves.
- **C175** All messages of an evaluation are harmless (no percent sign, no NUL): `eval_quiet`.
- **C176** `eval_default`; `nf_*`: which graph builders cannot fail.
- **C177** Refuted at the default level; last line at INFO by `eval_finish` (at DEBUG the last line is that of the ggml context going).
- **C178** Case analysis of `eval_lm` along the order of its checks. (The weights are checked before
  the hidden array is read; an earlier version of the model had it the other way round.)
- **C179** Induction over the tokens in front of the repetition.
- **C180** `announced`: the spellings tried for an id; `alternates_default`.
- **C181** From the map and list of the vocabulary.
- **C182** Inductive `eval_story`, one constructor per way a call can end; the trace equals the story. The address of the ggml context is a parameter; `C182_address` says how it is spelt.
- **C183** Inductive `lm_story`; `lm_run` says when the head fails.
- **C184** Refuted by two dry runs; the rest from C183.
- **C185** `load_story`; the definedness by `printable_before` and `printable_app`.
- **C186** The trace of `load_logged` erases to `load_from_file`; all its messages can be written or are undefined. Lines of level DEBUG are not in the trace (except the number of tokens), so statements are meant from INFO on; C208 adds the others.
- **C187** `load_inv` lists the ways a trace can end; `load_writes` and `vocab_writes` are the specification. Refuted by an unknown activation.
- **C188** The last message of each trace; a text has one last line.
- **C189** The order in which weights are asked for is that of `required_names`.
- **C190** `unused_in` turns the list into a condition per tensor. Refuted by a small RoBERTa file.
- **C191** The first message contains the path, a later one the name.
- **C192** `whole` erases the trace of `r_berts_tokenize_logged` to `r_tokenize`; every message of a success is free of `%`.
- **C193** The messages of a refusal have the rank of INFO (the guard of formatted errors). Refuted by a mask id naming the token of " a".
- **C194** The trace of `quantize_logged` erases to `berts_model_quantize`.
- **C195** All messages of quantize.cpp have a rank below WARN; those of loading are in the middle of the trace. Refuted by an output that cannot be opened.
- **C196** `convert_lines`, by induction over the tensors, gives the reports and the totals.
- **C197** The last message of each trace; texts without line break stay so when printed.
- **C198** `load_start` gives the first messages of each trace that gets past the metadata; the settings come from `read_settings_ok`, the space from `pool_size`.
- **C199** As C185: the trace of `r_vocab_logged` is computed with the accepted result; `load_merges_quiet` says that merges that load write nothing.
- **C200** `Qbuf_model.v` does the conversion in explicit buffers (reading or writing outside is UB); `quantize_buf_ok` per tensor, then induction: the result is that of `convert`, for any contents of the buffers. `C103_buffer_enough` bounds the output.
- **C201** `convert_buf_hist`: the counters after a run are the sums over `conversions`; `hist_empty`: when their total is 0.
- **C202** `quant_tool` with texts; types by C67 (`names_type`). A text has one last line (`ends_with`, compared on its last six bytes).
- **C203** `debug_erase`: leaving out messages of level DEBUG and raising the level keeps a run defined; then C191's first message.
- **C204** `fill_text` is `fill_mask` with texts: same case analysis (`text_status`, `status_text`); ids by `tokenize_ok`; the results by C109.
- **C205** One case of `fill_text` each; the masks by `find_mask_iff`.
- **C206** `run_rel`: `fill_log` and `fill_text` go through the same cases, the log added between (`app_log`); the tokenizer's part by C172 and C173, loading by C187.
- **C207** As C206 with C192 and C193: messages of the RoBERTa tokenizer about the text have rank below WARN.
- **C208** `Says_debug_model.v` is loading with all its messages. `load_shape`: leaving out those of level DEBUG from both traces gives the same; `debug_same`: from INFO on they write nothing.
- **C209** `named`: every message of level DEBUG is harmless or shows one name; `dump_printable`: such a message is a format iff the name is one.
- **C210** The trace has the lines of the settings and tensors in a row (`load_shape`); `log_split`, then `keys_log` and `tensors_log` by induction.
- **C211** `is_context` picks the messages about contexts by how they begin; `tame_context`, `reading_context`, `convert_context`: there are none in the other parts.
- **C212** `computes` of the model of threads against the trace of `Says_eval_model.v`: case analysis over the checks of both.
- **C213** `agrees`: the two traces have the same messages from INFO on; by induction over the pieces and the parts. `debug_same` then gives the log.
- **C214** `split_concat`: the parts make up the prompt; `subtexts_shown`: inverting the log line by line gives what was printed for each part; `escaped_join` puts these together.
- **C215** Induction over the iterations with the abstract word `repr` of `Bpe_proofs.v`: `says_merge` and `says_stale`: a merge is reported exactly when it is made.
- **C216** `clean`: no message has a percent sign; `part_free`, `split_free`, `encode_free` and `bytes_free` follow the text through its encodings.
- **C217** `reshaped` tensors take the same bytes and the same room (`reshaped_nbytes`, `reshaped_cost`); induction over reading; `both_bind` follows the look-ups of the weights.
- **C218** `find_unique`: with distinct names a look-up does not depend on the order; `same_memory`: equal regions are equal memory; `weights_ext`: the weights depend only on what each name holds.
- **C219** `firsts_find`: a look-up by name finds the same tensor with and without the later ones; then as for C218.
