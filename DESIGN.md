# Formal model of snips-nlu-rs: design

The model is written in Rocq (Coq 8.16.1) under `rocq/theories`. It is a set of
total, computable Gallina functions, one per Rust function, each with a comment
giving the file and lines of `/repo` it models. Theorems are about those
functions, for all inputs, states, hash orders, schedules and crash points.

## 1. How Rust is represented

| Rust | model |
|---|---|
| `String`, `&str` | `str := list N`, the list of Unicode scalar values. Byte offsets are computed with the UTF-8 length of each character; slicing off a character boundary is a panic. |
| `Range<usize>` | a pair of `nat` (`rstart`, `rend`). |
| `Result<T>` with panics | `outcome T := Ok t \| Err e \| Panic`. Panics (`unwrap`, index out of bounds, arithmetic underflow) are explicit values. |
| `usize` | `nat`; a subtraction that would underflow is `Panic`. Memory limits (2^64) are not modelled. |
| `i16`, `i32` casts | explicit wrap-around on `Z` where the code casts. |
| `f32` | Flocq's `binary_float 24 128` (IEEE binary32, one NaN), round to nearest even. |
| `HashMap`, `HashSet` | association list in iteration order, distinct keys. The order is universally quantified: a theorem about every list covers every order. Maps created inside a function are re-ordered by an arbitrary permutation function given as a parameter (`HashOrder`). |
| `sort_by`, `sorted_by` | a stable insertion sort; `partial_cmp().unwrap()` on NaN is `Panic`. |
| trait objects | records of functions (`IntentParser`, `Resources`, ...). Engine theorems hold for arbitrary such records; end-to-end theorems instantiate them with the concrete parsers of the repository. |
| external crates | parameters ("oracles") in records, with their contract as an explicit hypothesis of the theorem, or small definitions listed in section 3. |
| `Mutex` | a small-step transition system over threads (cache model). |
| file system | a finite map from paths to contents with a trace of effects; a crash is any prefix of the trace. |

## 2. Files

* `Base.v`, `Sorting.v`, `F32.v`: outcomes, strings, ranges, hash maps, stable sort, binary32.
* `M_*.v`: the model, no proofs.
* `S_*.v`: small independent specifications used in theorem statements.
* `P_*.v`: proofs.
* `Demo*.v`: concrete cases; `Tests_*.v`: the unit tests of the repository (section 7).
* `Properties_*.v`: only theorems closed by `exact`, each followed by
  `Print Assumptions`, with examples showing that the hypotheses are met by
  concrete non-trivial cases.

## 3. Plan per property

For each property of `properties.jsonl`: what is modelled, and how it is proved.

* C01 model `get_intents_whitelist`, the parse loop, the three parsers' filter handling. Per-parser lemma "the answered intent is in the filter", lifted by induction over the list of parsers. Counterexamples by computation on a one-class classifier.
* C02, C03 case analysis on the two options, list membership; order independence because the statement is about membership for every order.
* C04, C05, C08 induction over the parser list.
* C06 positive half from sortedness and distinctness of `get_intents`; negative half by an explicit two-parser engine.
* C07 invariant over the fold that merges parser results into a map; sortedness of the stable sort.
* C09, C10 induction over slots.
* C11 case analysis.
* C12 invariant of the greedy loop over the sorted list; idempotence from "sorted by start, disjoint".
* C13 induction over the sorted disjoint entities with the running offset as invariant; 16-bit bound as hypothesis. C14 computed witness.
* C15 arithmetic over the segments produced by C13; order independence from the characterisation of the result as a maximum.
* C16 composition of C12, C15, C22 with a regex oracle contract.
* C17, C18 Flocq rounding lemmas (monotonicity, exactness of doubling). C19 computed witness for order dependence; commutativity of binary32 addition for two results.
* C20, C21 model of the two `get_intents`/`get_slots`.
* C22 induction over tokens.
* C23 induction; permutation with the list of all sub-lists.
* C24, C25 model of candidates and table lookup.
* C26, C27, C28 model of the tag automata; loop invariant with "start of the current slot"; round trip by induction over segments.
* C29 concrete UTF-8 and base64 encoders/decoders, round trip by case analysis on 3-byte groups.
* C30 case analysis.
* C31, C32 invariant of the LRU list; C33 small-step semantics of threads with a mutex, invariant over all schedules; C34 poisoned state is absorbing.
* C35 prefix sums over tokens; C36 computed witness with a lower-casing oracle that behaves as Unicode on U+0130.
* C37, C38, C39 list lemmas.
* C40, C41 fold invariants; decimal printing/parsing round trip.
* C42 counting in binary32 (exact below 2^24), order independence of pointwise updates. C43 membership characterisation.
* C44, C45 list lemmas; the dot product and `exp` are oracles.
* C46-C49 model of `inject` as a program emitting file-system effects.
* C50 model of engine loading over an abstract file system.
* C51 model of path sanitising and of the extraction loop.
* C52 model of the C wrappers as a state machine.
* C53 corollary of C31.
* C54 panic condition of the n-gram features, both directions.
* C55, C56, C57 exact results: see the theorems.
* C58 induction over the loading loops; resource names as file names without extension.
* C59 congruence of loading over trees equal below the engine directory; witness with "../" names.
* C60 composition of C50's loading with the filter theorems of the parsers.
* C61 congruence of loading over two places with the same contents; composition with C51.
* C62 specification of learnt forms (S_Match), equivalence with the candidates, then C18's rule; the weights of binary32 are strictly decreasing below 2^22 slots (P_Weight).
* C63 inductive specification of "patterns tried in order" (S_Match), equivalence with the search, then C18's rule.
* C64 the same specification has an explicit panic case; witnesses for the two failures.
* C65 each parser gives quoting, ordered slots (C16, C24, C26-C28); resolution keeps both; composition over the parsers that loading builds.
* C66 unfolding of the two extractions over the parser that loading builds; C35 for the ranges; witness for the loss of case and blanks.
* C67 ranges of a text that is analysed as it is do not move, so length equality is range equality; witness with two blanks.
* C68 each parser and each feature is shown not to panic from the conditions on its own file; the ranking does not panic because no score is NaN: the normalised features are within 4 (error bounds of the float operations, Flocq), so the linear scores are numbers.
* C69 every decoder, resource reader and constructor is shown not to panic, by structure; C40 and C44 give the two exceptions; witnesses for them.
* C70 invariant over histories: every client is unpoisoned and holds an engine loaded from sound files; C68 and C69 for each call.
* C71 the C interface with a heap: addresses, kinds and contents; balance and freshness are invariants over histories, by induction.
* C72 the Python wrapper as a program over that heap with exceptions; each function unfolds to one call of C71; programs keep the invariant "no object, clients are those of the variables". A whole program (and those of C73, C74) is related to a program over engines of the Rust interface (S_History) by a simulation: each variable points to a client of the engine that the variable holds there, and no two variables to the same client.
* C73 likewise for Kotlin, with explicit `close`; the invariant counts results whose conversion threw; misuse is computed.
* C74 likewise for Swift; the invariant counts one message for each error.
* C75 `described` says for each factory name which features an entry means (S_Meaning); proved by cases on the name against the code that builds and computes them.
* C76 a small language of documents (S_Format): structures, optional and default fields, lists, maps where the last value counts, numeric keys; each decoder is proved to accept exactly its documents by one tactic over its fields.
* C77 a relation `engine_at` between a directory and an engine (S_Made), proved equivalent to loading; composed with C04, C62 and C63 for what a loaded engine answers.
* C78 the structures of libsnips_nlu.h and the Swift initialisers that read them (M_Structs); a relation `stands_for` between a structure and a value (S_Structs); each initialiser is proved to preserve it, and the result is composed with C74.
* C79 threads with their programs, the mutex of each client, and a log of the calls that have returned (M_Share); an invariant on who holds which mutex; each return is one step of M_Ffi, so that the log is a sequential history.
* C80 the engine asks an oracle for builtin entities, custom entities and tags; threads ask the shared parts under their locks, step by step (M_Threads); an invariant says that caches hold answers of the parsers and that the work under a lock ends with the answer of the part itself; the engine that asks the plain parts is the engine of M_Load.
* C81 the operations of an injection stay below the directories of the requested parsers (C47), so all that `from_path` reads elsewhere is unchanged; the entity parsers are a function of the listed gazetteer parsers (contract `assembled` of the external loaders), of which the injection replaces the requested ones; whether an intent parser loads does not depend on the entity parsers.
* C82 every decoder and constructor is related to itself under two iteration orders: maps are equal as functions, lists of scopes are permutations. The parsers then give equal answers: the rule based ones by C19 (two weights add up commutatively), the probabilistic one because it only looks keys up. The counterexample is a directory whose three intents match with 6, 7 and 55 slots: 1/7 is exactly half of 1/7 + 1/8 + 1/56, and one order of the binary32 sum rounds it above.
* C83 the two texts are related letter by letter; each function that reads the text is shown to map related arguments to related results: token ranges agree, values agree after normalization or lower-casing, entity parsers are asked lower-cased texts, and features other than word shapes are equal. Lookup matches are related up to the order of a hash set, hence the limit of two as in C82. The exceptions are shown on two variants of the home engine.
* C84, C85 what a rule based parser answers is determined by its readings of the text (C62, C63): with one reading the answer under a filter that allows it is this reading at confidence 1, otherwise nothing. The classifier sorts then takes the first class; filtering commutes with the stable sort. Induction over the parsers of the engine. The exceptions are shown on a variant of the home engine whose patterns know one text for two intents and one text without slots.
* C86 monotonicity of rounding (Flocq) through 1 + e and 1 / d, infinities included; then the order of C16's stable ranking. 1 + e rounds to 1 for e up to 2^-24 (ties to even). The refutation is a classifier with linear scores 17 and 100, for every exponential with exp(-17) at most 2^-24.
* C87, C88 invariants of the merge of the parsers' lists: each value comes from the list of a parser (insertion only copies), a positive score is only replaced by a greater one, keys are never removed. The lists of rule based parsers are the shares of C17 over the matches that C77 characterises from the files, completed with zeros; those of classifiers are C44's. A list with two entries one of which is NaN cannot be sorted.
* C89 the answer of a rule based parser is the head of the same sorted list that its get_intents truncates less, and all the other shares are at most one half (C18); the answer of a classifier is the head of its list. The merge keeps at least that confidence (C88), and a sorted list begins with its maximum.
* C90 each stage commutes with adding blanks: tokens and builtin entities move by contract, the cached and custom entity parsers, placeholders, blanking of stop words, the shift back, features, tags and resolution are each shown to move their places by the same number; the classifier and the tables see only the tokens. The regular expressions are assumed to capture the same groups.
* C91 an inductive relation lists the injections that happened, complete or cut; by induction on it the metadata, resources and intent parsers are kept, each step updates the parsers of its entities (C47) or leaves them, and the engine after the history is the one before with the entity parsers of after (C81).
* C92 the calls are cut at each change of the tree and interleaved by a schedule; a call reads each of its files at some time between two of its steps; an invariant over the schedule says for each injection which of its entities are untouched, in hand and updated; with C91 the final tree loads like that of a sequential history. The losses and failures are schedules built from the operations of a successful injection.
* C93 agreement is stated on the json documents (patterns, tables, mappings of slot fillers, dataset); each kind of parser only gives slots of its document (C16, table entries, C28), resolution keeps names and entities (C09), and C77 links the loaded parsers to their documents. The exceptions are two concrete engines.
* C94 relational proof: two runs with different numbers go through the same steps up to the alternatives of the entities, by induction over the parsers and the slots; the bound follows each slot back to the entity it was resolved with. Contracts of the entity libraries are hypotheses on the loader.
* C95 completeness is stated on the json documents; each error path of the parsers, features, slot fillers and resolution is shown unreachable from it (C77 links the loaded parsers to their documents), and C68 excludes the crashes. The exception is a concrete engine without one of its slot fillers.
* C96 each kind of parser is shown to use its filter only through membership of the intents that its documents mention; by C77 and C88 this covers the main answer and the alternatives. The exception is a concrete engine whose dataset omits an intent.
* C97 by induction on the parsers of the engine: the loops of parse and get_slots stop before the new parsers or pass on to them; the merge of get_intents over a concatenation is the merge over the second list started from the result of the first. For directories, the loaders of the folders of the engine are shown not to read its main document (the external loaders look only below the path they are given, as in C59).

No property of the list is considered inexpressible.

## 4. Trusted base

### 4.1 Kernel and axioms

Trusted: the kernel of Coq 8.16.1 (including its conversion by `vm_compute`), the
libraries it loads as compiled files (standard library, Flocq 4; Flocq adds no axiom), and the
reading of the Rust source into the definitions of `M_*.v`. No axiom, parameter,
admitted lemma, plugin, functor or module type is defined in `rocq/theories`, and no
kernel check is switched off.

`Print Assumptions` is called under every theorem of `Properties_*.v`. There are two
answers only:

* "Closed under the global context";
* the four axioms of the standard library's real numbers and classical logic, which
  Flocq's proofs about `binary_float` use:
  `ClassicalDedekindReals.sig_forall_dec`, `ClassicalDedekindReals.sig_not_dec`,
  `Classical_Prop.classic`, `FunctionalExtensionality.functional_extensionality_dep`.
  They enter through the definition of the binary32 operations (the validity proofs
  inside `binary_float` operations), so every theorem whose statement mentions a
  parse result with a score, or an engine, lists them.

**Closed under the global context** (252 theorems, names without the `Cnn_` prefix): C01: filters_honoured; C02: known_names_accepted, unknown_names_rejected; C03: effective_filter; C04: answer_of_first_match, first_match_wins, no_match, reached_failure; C05: alternatives_are, main_answer_unchanged, parse_is_zero_alternatives; C07: hash_order; C08: first_parser_with_slots, get_slots_answer, get_slots_is_zero_alternatives, no_slots, reached_failure; C09: slots_not_altered; C10: custom_slots, extensible_slots_kept; C11: extract_slot; C12: entities_idempotent, entities_isolated_kept, entities_resolution, slots_idempotent, slots_isolated_kept, slots_resolution; C13: mapping_designates_placeholders, replacement; C14: long_texts, long_texts_refuted; C15: order_independent, outside_placeholders, placeholder_to_entity; C22: stop_words_blanked, stop_words_of_intent; C23: all_sublists, each_once, empty_then_larger_first; C26: any_tags, foreign_tags_refuted, tags_partition; C27: io_adjacent_refuted, round_trip; C28: no_panic, slot_filler, slots_are_slices, undeclared_slot; C29: ascii, injective, round_trip; C31: cache_invisible, error_not_stored; C32: cache_contents, hit_does_not_call, miss_calls; C33: answers, linearizable, mutual_exclusion, no_deadlock, steps_bounded; C34: only_a_panic_poisons, panic_poisons; C35: in_bounds, joined_character, joined_positions, ranges_moved; C36: custom_parser, ranges_in_user_text, shifted_refuted; C37: prefix, suffix; C38: panics, rebuilt, rebuilt_text, transformed; C39: keys_collide_refuted, keys_differ, offsets, slot_filler, total; C40: last_declared, loading, not_declared, one_table, printed_as_in_the_file, printed_as_in_the_file_refuted; C41: gazetteer, listed_words_found_refuted, stem_of_last_line, stem_unlisted, stems_load, stop_words; C42: model, model_or_error, words; C43: model, model_or_error, text, text_errors; C44: loading, names_once, no_features; C45: get_intents, get_slots, parse; C46: checked_before_changes, never_panics, no_values, not_injectable, unreadable_engine; C47: all_or_nothing_refuted, defaults, hash_order, injected, other_entities, rest_unchanged, succeeds; C48: crash_loses_entity, crash_point, failure_keeps_parser_refuted; C49: custom_values, never_panics, no_stemmer; C51: extracted, never_panics_refuted, only_entries, panics_only, rest_unchanged, returned_directory, stays_below, succeeds; C52: created, destroyed, history, intents, json, kept, last_error, no_alternatives, null_element, parse, refused, slots, undefined_only, version; C53: case_ignored; C54: filler_never_panics, huge_ngram_panics; C55: builtin_entity, custom_entity; C56: ngram, shape_ngram; C57: unknown_entity_fails, values_of_slots; C66: builtin_quotes, custom, custom_plain; C67: any_blanks_refuted, whole_slot; C71: balance, destroy, destroy_null, results, stable, texts, undefined; C72: created_bytes, created_dir, history, intents, long_numbers, numbers, parse, program, slots; C73: after_close, created, empty_filter, history, intents, parse, program, slots, version; C74: created, empty_data, history, intents, number_crash, parse, program, slots; C75: accepted, features, rejected, slot_filler, wrong_codes_refused_refuted; C76: builtin_parser, classifier, cooccurrence, custom_parser, deterministic, duplicate_keys_refused_refuted, engine, featurizer, gazetteers, lookup, probabilistic, resources, slot_filler, tfidf, unit, version; C78: interval, interval_refuted, null, ordinal, ordinal_refuted, place_refused, value; C79: answers, careful, linearizable, no_deadlock, one_at_a_time, own_error, poisoned, program_order, steps_bounded, time; C80: answers, completes, lock_released, no_deadlock, one_at_a_time, poison_cause, poison_stays, poisons, program_order, refused; C84: alternatives_but_first, alternatives_kept; C91: elsewhere, stuck; C97: get_intents_failure, get_slots, get_slots_else, main_answer, parse, parse_else, silent.

**The four axioms above** (207 theorems, names without the `Cnn_` prefix): C01: deterministic_parser, end_to_end, filters_refuted, lookup_parser, no_null_class_ignores_filter, scored_texts, single_class_ignores_filter; C03: same_filters; C05: alternatives_bounds, alternatives_can_fail_refuted; C06: main_duplicated_iff, no_duplicate_refuted; C07: best_score, each_intent_once_best_first; C16: slots_declared_and_disjoint, slots_inside_text; C17: deterministic_scores, lookup_scores; C18: ambiguity, deterministic_answer, lookup_answer; C19: deterministic_two_matches, lookup_two_matches, order_independence_refuted; C20: deterministic_intents, lookup_intents; C21: deterministic_agrees_with_parse, deterministic_certain, deterministic_slots, lookup_certain, lookup_slots; C24: slots_are_detected_entities; C25: crash_iff_bad_entry, no_crash; C30: no_label_panics, no_tagger, poisoned_fails, unknown_tags; C42: empty_vocabulary_panics, no_known_word, order_independent, vector; C43: concatenation, crash_iff, duplicate_pair_panics_refuted, order_independent, pairs; C44: best_is_first, classes_ranked, classifier_succeeds, features, scores, scores_in_unit, shape_errors, unscored_texts; C45: lists_every_class; C46: other_version_refused_refuted; C48: crash_loses_engine; C50: no_version, other_version, supported_version_only; C53: loaded; C58: clusters, distinct_names_refuted, gazetteers, stems, stop_words; C59: only_below, only_below_refuted; C60: loaded_engine_honours_filters; C61: archived, moved; C62: always_answers, answer, answer_is_learnt, filter_agreement_refuted, learnt_is_answered, nothing_learnt, own_form, slots; C63: answer, answer_matches, match_is_answered, no_match, slots; C64: answers, crash_iff, intent_without_patterns, loaded_parsers_answer_refuted; C65: get_slots_quotes, parse_quotes; C66: custom_quotes_refuted, loaded; C68: features_bounded, loaded_engine_never_panics, plain_product_meets_contract; C69: any_files_refuted, loading_never_panics; C70: archives, host_never_crashes; C72: whole_query_refuted; C77: answer_is_learnt, entity_parsers, layout, learnt, nothing_learnt; C78: intents, parse, result, result_with_place, slots, valid_memory; C80: asks, engine; C81: new_values, only_entities, still_loads; C82: alternatives, extract, intents, loading, parse, slots, three_intents_refuted, tied_alternatives_refuted; C83: alternatives, cooccurrences_refuted, extract, intents, parse, shapes_refuted, slots; C84: classifier, parse, two_readings_refuted; C85: no_slots_refuted, slots, slots_found, unlisted_refuted; C86: binary, greatest_wins_refuted, monotone, order, saturated, saturated_answer; C87: intents, not_a_number, parse, rules_alone; C88: first_parser, only_listed, positive, understood; C89: alternatives, certain, first_refuted, listed, nothing, one_classifier, one_rules; C90: alternatives, empty_refuted, extract, intents, parse, slots; C91: same_engine, same_values, still_loads, values; C92: alone, anytime, both_kept_refuted, elsewhere, injected, injection_unhindered_refuted, load, load_unhindered_refuted, never_blocks, others, serial, unhindered; C93: entities, extractable, get_slots_entities, get_slots_names, names, table_entities_refuted, unchecked_refuted; C94: extract, extract_bound, get_slots, get_slots_bound, none, parse, parse_bound; C95: extract_slot, get_intents, get_slots, loaded_answers_refuted, parse; C96: empty_blacklist_refuted, neutral, permits; C97: get_intents, in_front_refuted, loaded.

### 4.2 What is modelled

| source | model | remarks |
|---|---|---|
| `src/nlu_engine.rs` | `M_Engine`, `M_Load`, `M_Zip` | every method of `SnipsNluEngine`, the free `extract_slot`, loading from directories and archives |
| `src/intent_parser/deterministic_intent_parser.rs` | `M_Det` | complete; `regex` is an oracle |
| `src/intent_parser/lookup_intent_parser.rs` | `M_Lookup` | complete |
| `src/intent_parser/probabilistic_intent_parser.rs` | `M_Prob` | complete |
| `src/intent_classifier/*.rs` | `M_Prob`, `M_Feat` | complete; the cells of a matrix product and `exp` are oracles |
| `src/slot_filler/*.rs` | `M_Crf`, `M_Features`, `M_Filler` | complete; the CRF tagger is an oracle |
| `src/entity_parser/*.rs` | `M_Cache` | cache, locking, range arithmetic; the two entity parsers are oracles |
| `src/entity_parser/*.rs`, `src/slot_filler/crf_slot_filler.rs` | `M_Threads` | threads that share an engine: the locks of the caches and taggers |
| `src/resources/*.rs` | `M_Res`, `M_Load` | complete; the hash function is an oracle |
| `src/injection/*.rs` | `M_Inject` | complete; gazetteer parsers and `remove_dir_all` are oracles |
| `src/models/*.rs` | `M_Json` | the derived deserialisers, on parsed json |
| `src/utils.rs`, `src/slot_utils.rs` | `M_Utils`, `M_Engine`, `M_Zip` | complete |
| `ffi/src/lib.rs` | `M_Ffi` | creation, the six queries, destruction of clients, model version |
| `ffi/src/lib.rs` | `M_Memory` | allocation of results, the last error, the functions that free results |
| `ffi/src/lib.rs` | `M_Share` | threads that share clients |
| `platforms/python/snips_nlu_rust` | `M_Wrap`, `M_Python` | `NLUEngine`, `utils.py` |
| `platforms/kotlin/.../NluEngine.kt` | `M_Kotlin` | `NluEngine`, `CStringArray` |
| `platforms/swift/.../NluEngine.swift` | `M_Swift` | `NluEngine`, `NluEngineError`, `CStringArray` |
| `platforms/swift/.../NluEngine.swift`, `platforms/c/libsnips_nlu.h` | `M_Structs` | the structures of results and the initialisers of Swift results |

### 4.3 What is not modelled

* The contents of error messages and the contexts added to errors; only the class of an error.
* The conversions to C structures (a parameter `to_c`), and from these to Kotlin
  objects (a parameter `view`).
* `src/bin`, `examples`, benches, logging, build scripts.
* Memory exhaustion, stack overflow, sizes above 2^64 (except where a theorem mentions a wrap).
* Files that are not UTF-8 are like absent files; symbolic links do not exist; the
  tree is not changed by others during a call, except in C92, where several calls share it.
* A debug build panics where the release build wraps; the model follows the release build
  (`overflow-checks` is off), and the wraps are explicit.

### 4.4 Contracts of external code

Definitions that stand for external code, to be checked against the crates:

| definition | stands for |
|---|---|
| `lru_get`, `lru_insert` (`M_Cache`) | crate `lru-cache` |
| `csv_records` (`M_Res`) | crate `csv`, no quoting, no header, no trimming |
| `lines` (`M_Res`) | `BufRead::lines` |
| `components`, `pjoin`, `with_extension`, `resolve` (`M_Fs`) | `std::path` on Unix |
| `utf8_*`, `b64_*` (`M_Filler`) | `std::str::from_utf8`, crate `base64` (canonical inputs) |
| `fields`, `required`, `optional`, `defaulted`, `d_map` (`M_Json`) | derived `serde::Deserialize` with `serde_json` |
| `sanitized_name` (`M_Zip`) | crate `zip` 0.5 |
| `create_dirs`, `create_file`, `copy` (`M_Zip`) | `std::fs`, `std::io::copy` |
| `rust_string`, `point_to_string`, `wrap` (`M_Ffi`), `get_last_error`, `destroy` (`M_Memory`) | crate `ffi_utils` |
| `py_encode`, `py_uint`, `string_pointer` (`M_Python`) | ctypes, reference counting |
| `kt_string`, `kt_int` (`M_Kotlin`) | JNA |
| `sw_string`, `sw_uint32` (`M_Swift`) | Swift, its bridging of C strings |
| `isort`, `sort_desc` (`Sorting`) | stable `slice::sort_by` |

Hypotheses that stand for the behaviour of external code; each theorem that needs one
has it in its statement:

| hypothesis | meaning |
|---|---|
| `tokenizer_ok` (`S_Det`) | tokens are slices of the text, in order, disjoint, not empty |
| `regex_ok`, `respects_placeholders` (`S_Det`, `S_Rules`) | captures are ranges of the text; a capture does not begin or end inside a placeholder |
| `builtin_parser_ok`, `custom_parser_ok` (`S_Rules`) | for the text in question: entities have non-empty ranges inside it |
| `tagger_ok`, `tags_in_alphabet`, `tagger_never_panics`, `parsers_never_panic` (`S_Filler`) | one tag per token, tags are labels of the model |
| `exp_ok` (`S_Prob`) | `exp` of a number is a number at least 0 |
| `lowercasing` (`S_Cache`) | `to_lowercase` works character by character, except for the final sigma; `charwise` says that a text keeps its length |
| `gaz_ok`, `gazetteer_needed` (`S_Inject`) | a gazetteer parser that was dumped loads as itself; dumping and removing change only its directory; loading fails on an empty directory |
| `cell_ok`, `externals_behave` (`S_Safe`) | a matrix product of at most 2^24 bounded terms is a number; matches of the gazetteer parser lie inside the text; the entity parsers and taggers do not panic |
| `filters_are_sets` (`S_Seeds`) | the order in which the kinds of the filter are given to an entity parser does not matter |
| `loaders_local`, `loaders_relative` (`S_Load`) | the external loaders read only below the directory they are given, and do not use its name |

### 4.5 Hypotheses about models

Some theorems assume that a model has the form the Python trainer produces:
`table_ok`, `small_table`, `det_keys_once`, `full_table`, `good_pairs`,
`classifiers_with_null`, `pairs_once`. Each is accompanied by what the code does when the
hypothesis fails (see the findings) or by an example.

## 5. Findings

Statements a user might expect that are false of the code. Each is a theorem (a
`_refuted` statement, or the exception half of an exact characterisation).

| property | finding | theorem |
|---|---|---|
| C01 | a classifier with one class, or without null class, or an empty text, answers an intent excluded by the filter | `C01_filters_refuted, C01_single_class_ignores_filter, C01_no_null_class_ignores_filter` |
| C05 | asking for alternatives can turn a successful parse into an error | `C05_alternatives_can_fail_refuted` |
| C06 | the alternatives can repeat the main intent (exact condition proved) | `C06_no_duplicate_refuted, C06_main_duplicated_iff` |
| C14 | texts longer than 32767 characters: the 16-bit offsets of placeholders wrap and ranges are wrong | `C14_long_texts_refuted` |
| C19 | with several matches, the answer depends on the iteration order of a hash map (binary32 sums) | `C19_order_independence_refuted` |
| C25 | a lookup table with bad intent or slot ids panics (exact condition proved) | `C25_crash_iff_bad_entry` |
| C26 | tags foreign to the scheme can produce overlapping slots | `C26_foreign_tags_refuted` |
| C27 | the IO scheme merges adjacent slots, as expected from the format | `C27_io_adjacent_refuted` |
| C30 | a tagger without labels panics, and its mutex stays poisoned | `C30_no_label_panics, C30_poisoned_fails` |
| C34 | a panic inside a cached extraction makes every later cached extraction panic | `C34_panic_poisons` |
| C36 | characters whose lower-case form has another length (U+0130) shift the reported ranges | `C36_shifted_refuted` |
| C39 | two features can get the same key, so that one hides the other | `C39_keys_collide_refuted` |
| C40 | cluster numbers are printed without leading zeros or plus sign when all clusters are numbers | `C40_printed_as_in_the_file_refuted` |
| C41 | a listed word that is not in normal form is never found | `C41_listed_words_found_refuted` |
| C42 | an empty vocabulary panics | `C42_empty_vocabulary_panics` |
| C43 | a word pair listed twice makes texts with that pair panic | `C43_duplicate_pair_panics_refuted, C43_crash_iff` |
| C47 | a failed injection may already have changed other entities | `C47_all_or_nothing_refuted` |
| C48 | a crash or failure between removal and dump loses the parser of an entity, and the engine no longer loads | `C48_crash_loses_engine, C48_failure_keeps_parser_refuted` |
| C51 | a crafted archive makes the extraction panic | `C51_never_panics_refuted` |
| C52 | after a panic, a C handle refuses all later calls | `C52_refused` |
| C54 | an n-gram size close to 2^64 panics | `C54_huge_ngram_panics` |
| C58 | two resource names can share a file | `C58_distinct_names_refuted` |
| C59 | names with `..` or a leading `/` in the json files read outside of the engine directory | `C59_only_below_refuted` |
| C62 | filtered and unfiltered answers of the lookup parser can disagree: the form of a text for another intent can be in the table | `C62_filter_agreement_refuted` |
| C64 | one intent without patterns makes the deterministic parser refuse every text; a group without slot panics | `C64_loaded_parsers_answer_refuted, C64_intent_without_patterns` |
| C66 | `extract_slot` returns the lower-cased, re-spaced words as raw value of a custom slot, not what the user wrote | `C66_custom_quotes_refuted` |
| C67 | the fallback resolution refuses a match that covers the whole slot when the words of the slot are not separated by single blanks | `C67_any_blanks_refuted` |
| C69 | an engine directory with a classifier that misses one coefficient, or with a word cluster file of one column, panics while it is loaded instead of giving an error | `C69_any_files_refuted` |
| C72 | a query, filter or path with a zero character is silently cut by all three wrappers: the answer is about the text before it | `C72_whole_query_refuted` |
| C72 | `utils.py` asks the library for `snips_nlu_engine_get_last_error`, but `platforms/python/ffi` exports `ffi_snips_nlu_engine_get_last_error`: when the short name is missing, the Python user gets an exception of ctypes in place of the error of the library | `C72_parse` |
| C73 | an empty whitelist or blacklist makes the Kotlin wrapper pass an array without data, which is undefined in Rust | `C73_empty_filter` |
| C73 | a Kotlin engine can be closed twice or used after `close`: undefined | `C73_after_close` |
| C73 | when the conversion of a result throws, the Kotlin wrapper does not free it; a negative number of alternatives is read as a huge one | `C73_parse` |
| C74 | the Swift wrapper never frees error messages: one C string is lost for each error | `C74_program` |
| C74 | empty data passed to the Swift constructor reaches Rust as a null pointer (undefined), and a negative number of alternatives crashes the process | `C74_empty_data, C74_number_crash` |
| C75 | the tagging scheme code of a feature entry is reduced modulo 256: 257 means BIO, although 3 is refused | `C75_wrong_codes_refused_refuted` |
| C76 | an object that gives two values to the same key of a map (an entity, an intent, a phrase) is accepted and the last value silently wins, while a repeated field of a structure is an error | `C76_duplicate_keys_refused_refuted` |
| C46 | injection does not check the version of the model: an engine of another version, which does not load, is changed all the same | `C46_other_version_refused_refuted` |
| C78 | in Swift the end of a time interval is a copy of its beginning (NluEngine.swift:195 reads `from` twice) | `C78_interval, C78_interval_refuted` |
| C78 | in Swift an ordinal is read with 32 bits although the C structure has 64 | `C78_ordinal_refuted` |
| C78 | in Swift one slot with a city, a country or a region makes the whole call throw, even when it is only an alternative | `C78_place_refused, C78_result_with_place` |
| C82 | two processes that load the same directory can answer the same text differently (an intent or none) when a rule based parser matches three intents | `C82_three_intents_refuted` |
| C82 | the alternatives of parse depend on the iteration order of a hash table when two intents have the same confidence, so that two calls of parse on one engine can list other intents | `C82_tied_alternatives_refuted` |
| C83 | cooccurrence features compare the words of the user with their case, unlike the other features of the classifier: "turn on" and "Turn on" can have different intents | `C83_cooccurrences_refuted` |
| C83 | the word shape feature of slot fillers distinguishes capitals (by design): case can change the slots | `C83_shapes_refuted` |
| C84 | forbidding an intent that is not the answer can change the answer: patterns of two intents that cancel each other do not cancel any more when one is forbidden | `C84_two_readings_refuted` |
| C85 | get_slots for the intent that parse answers can return slots that parse did not return: a rule that knows the text without slots stops parse but not get_slots | `C85_no_slots_refuted` |
| C85 | get_slots fails with an unknown intent error for an intent that parse answers, when a rule based parser of the engine does not list it | `C85_unlisted_refuted` |
| C86 | confidences saturate at 1 for linear scores above about 16.64, so of two such intents the one listed first in the model is the answer, whatever the linear scores | `C86_greatest_wins_refuted` |
| C87 | a trained coefficient that overflows 32 bit floats makes linear scores NaN for texts where its feature is 0, and get_intents then panics in its sort | `C87_not_a_number` |
| C89 | with several parsers the intent that parse answers need not be the first of get_intents, and when no rule knows a text parse is certain (confidence 1) that there is no intent while get_intents gives the absence of intent the confidence 0 | `C89_first_refuted, C89_nothing` |
| C90 | the empty text gets no intent with certainty, but a text of blanks only is classified by the intercepts and can get an intent; extract_slot returns the blanks around a text as part of the value when no entity is found in it | `C90_empty_refuted, C90_extract` |
| C91 | an injection interrupted in one entity makes every later injection fail, into whatever entity, unless the caller provides the resources: the injector first loads all resources, with the broken parser | `C91_stuck` |
| C92 | nothing is locked: two simultaneous injections into one entity can both succeed while the values of one are lost, and during an injection a loading, or an injection of another entity without given resources, may fail | `C92_both_kept_refuted, C92_load_unhindered_refuted, C92_injection_unhindered_refuted` |
| C93 | the lookup parser confuses entities whose names differ only by letter case, so that a slot gets another entity than its own; loading accepts parsers whose slots the dataset does not declare | `C93_table_entities_refuted, C93_unchecked_refuted` |
| C95 | loading accepts an engine whose classifier has a class without slot filler; parse then fails with an unknown intent error on the texts of this class, although the caller named no intent | `C95_loaded_answers_refuted` |
| C96 | an empty blacklist is not the same as no blacklist: it forbids the intents that the parsers know and the dataset does not list | `C96_empty_blacklist_refuted` |
| C97 | the order of the parsers in the main document matters: a parser added in front can replace the answer of the others | `C97_in_front_refuted` |

## 6. Tests of the theorems

`seeded/LOG.jsonl` has one line per wrong program tried: the definition of the model
that was edited in a scratch copy, the edit, the claim it breaks, the theorems that no
longer hold (a theorem counts when its proof, or the proof of a lemma it uses, fails)
and the theorems that were added or tightened because of it.  In the later runs only the
files on which the theorems of the claim rest were rebuilt, so the list of failed theorems
of those lines covers these files only.  A line with `"attempt": 2` is the same edit run
again, after a theorem was tightened or with the claim corrected.

## 7. Tests of the model

The files `Tests_*.v` replay on the model the unit tests that `/repo` has for the
modelled functions, with the inputs and the expected values of those tests; the
doubles of the external crates are in `Tests_Base.v`.  `Tests_Beverage.v` loads with
the modelled loader the trained engine `data/tests/models/nlu_engine_beverage`, from the
contents of its files (`Tests_Files.v`), and replays the tests that use it; `Demo_Shipped.v` checks that this engine meets the
conditions of the theorems about loaded engines (C60, C68, C69).  They are checks that the model
was transcribed faithfully, on the same literals as the tests of the program, and no claim rests on them.
