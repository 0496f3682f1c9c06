{"id": "C01", "title": "Intent filters are honoured by parse", "statement": "When a caller passes an intents whitelist and/or blacklist to SnipsNluEngine::parse (or parse_with_alternatives), any intent in the answer is allowed by the filters: it is in the whitelist if one was given and not in the blacklist if one was given. This holds for engines made of lookup and deterministic parsers, and for a probabilistic parser whose classifier has at least two classes including the null class. It does NOT hold for a classifier with a single class, nor, on featureless input, for a classifier without the null class: there the filter is ignored (counterexamples are part of the claim).", "quantifier": "every engine, every list of intent parsers, every input text, every whitelist and blacklist, every hash iteration order", "why_tests_cant": "filters and model contents are unbounded; the violating configurations are degenerate models that no unit test builds", "anchors": ["src/nlu_engine.rs:SnipsNluEngine::parse_with_alternatives", "src/nlu_engine.rs:get_intents_whitelist", "src/intent_parser/deterministic_intent_parser.rs:parse_top_intents", "src/intent_parser/lookup_intent_parser.rs:parse_map_output", "src/intent_classifier/log_reg_intent_classifier.rs:get_intents_with_whitelist"]}
{"id": "C02", "title": "Unknown intent names in filters are rejected", "statement": "If a whitelist or blacklist names an intent that the dataset does not contain, parse returns an error and no parser is run; if every name is known, the filter computation never errors.", "quantifier": "every dataset, every pair of filter lists", "why_tests_cant": "lists and names are unbounded; a test shows a single unknown name", "anchors": ["src/nlu_engine.rs:get_intents_whitelist"]}
{"id": "C03", "title": "Effective filter is whitelist minus blacklist", "statement": "The set of intents the parsers are restricted to is: no restriction when neither filter is given; otherwise exactly the known intents that are in the whitelist (when given) and not in the blacklist (when given). Order and duplicates in the caller's lists do not matter. Two calls whose filters allow the same known intents get the same answer.", "quantifier": "every dataset, every pair of filter lists, every hash iteration order", "why_tests_cant": "set equality over unbounded lists and arbitrary hash order", "anchors": ["src/nlu_engine.rs:get_intents_whitelist", "src/utils.rs:IterOps::intersect"]}
{"id": "C04", "title": "Parsers are tried in order, first match wins", "statement": "parse returns the intent, confidence and resolved slots of the first parser (in configuration order) that recognises an intent; parsers after it cannot influence the answer, even by failing. If none recognises an intent the answer is 'no intent' with no slots and the confidence reported by the last parser (0 when there is no parser). An error of a parser that is reached is returned as is.", "quantifier": "every sequence of intent parsers, each with arbitrary behaviour", "why_tests_cant": "universal over the behaviour of an unbounded list of parsers", "anchors": ["src/nlu_engine.rs:parse_with_alternatives"]}
{"id": "C05", "title": "Asking for alternatives does not change the main answer, and bounds hold", "statement": "parse is parse_with_alternatives with zero alternatives and then the alternatives list is empty. With n alternatives requested, at most n are returned, every named one passes the filters, they are ordered by non-increasing confidence, and the input, intent and slots of the main answer are exactly those returned with zero alternatives (for the same slot-alternatives argument).", "quantifier": "every engine, text, filters, number of alternatives", "why_tests_cant": "universal over parsers and counts", "anchors": ["src/nlu_engine.rs:parse", "src/nlu_engine.rs:parse_with_alternatives"]}
{"id": "C06", "title": "Alternatives versus the main answer", "statement": "The code comment promises that the top result is not duplicated in the alternatives. The promise is kept exactly when the best scored intent listed by get_intents (after filtering) is the intent of the main answer; it is broken when a later parser scores another intent higher: then the main intent appears again among the alternatives and the dropped entry is a different intent. Both halves are claims.", "quantifier": "every engine, text and filters; existence of a concrete engine for the failing half", "why_tests_cant": "needs a combination of two parsers that disagree, and a universal statement for the good case", "anchors": ["src/nlu_engine.rs:parse_with_alternatives", "src/nlu_engine.rs:get_intents"]}
{"id": "C07", "title": "get_intents lists each intent once, best first, with its best score", "statement": "SnipsNluEngine::get_intents returns each intent name (and the null intent) at most once, in non-increasing order of confidence; the score of a listed intent is the maximum of the scores given to it by the parsers (when scores are non-negative and each parser lists an intent once), and every intent that gets a positive score from some parser, or any score from the first parser that returns something, is listed. The multiset of (intent, score) pairs does not depend on hash iteration order.", "quantifier": "every list of parsers, every text, every hash iteration order", "why_tests_cant": "universal over parsers and hash orders", "anchors": ["src/nlu_engine.rs:get_intents"]}
{"id": "C08", "title": "get_slots falls through to the first parser that finds slots", "statement": "SnipsNluEngine::get_slots returns the resolved slots of the first parser that finds at least one slot for the intent, an empty list when none does, and an error as soon as a parser it reaches fails.", "quantifier": "every list of parsers, text and intent name", "why_tests_cant": "universal over parser behaviours", "anchors": ["src/nlu_engine.rs:get_slots_with_alternatives"]}
{"id": "C09", "title": "Slot resolution never invents, reorders or alters slots", "statement": "The slots of an answer are, in order, a subsequence of the slots found by the winning parser; each keeps the raw text, the character range, the entity and the slot name found by the parser. Only the resolved value and its alternatives are added.", "quantifier": "every slot list, every dataset metadata, every behaviour of the builtin and custom entity parsers", "why_tests_cant": "universal over entity parser behaviour", "anchors": ["src/nlu_engine.rs:resolve_slots", "src/slot_utils.rs:resolve_builtin_slot", "src/slot_utils.rs:resolve_custom_slot"]}
{"id": "C10", "title": "Slots of automatically extensible entities are never lost", "statement": "A slot whose entity is a custom entity declared automatically extensible is always present in the answer (unless an entity parser fails). A slot of a non extensible custom entity is kept iff an entity of that kind is found exactly at the slot's range, or the entity parser run on the slot text alone matches all of its characters with its last match. In particular the resolved value of a kept non-extensible slot is a resolution returned by the entity parser.", "quantifier": "every slot, dataset and entity parser behaviour", "why_tests_cant": "universal over slots and entity parser outputs", "anchors": ["src/slot_utils.rs:resolve_custom_slot", "src/nlu_engine.rs:resolve_slots"]}
{"id": "C11", "title": "extract_slot contract", "statement": "extract_slot fails for an unknown intent or a slot the intent does not have; for a builtin entity it answers the first entity found in the text; for a custom entity it answers the last entity found, or, when nothing is found, the entire text with range 0..length if the entity is automatically extensible, and nothing otherwise.", "quantifier": "every dataset, text, intent and slot name, every entity parser behaviour", "why_tests_cant": "universal over names and parser outputs", "anchors": ["src/nlu_engine.rs:extract_slot", "src/nlu_engine.rs:extract_custom_slot", "src/nlu_engine.rs:extract_builtin_slot"]}
{"id": "C12", "title": "Overlap resolution keeps a maximal set of pairwise disjoint items by priority", "statement": "Among detected entities (or slots) the library keeps a subset in which no two overlap; every discarded one overlaps a kept one of equal or higher priority (longer text; for slots, more tokens plus characters); an item that overlaps nothing is kept; the result is ordered by start position. Applying the resolution again changes nothing.", "quantifier": "every list of items and every priority", "why_tests_cant": "universal over lists; greedy choice correctness needs an invariant", "anchors": ["src/utils.rs:deduplicate_overlapping_items", "src/utils.rs:deduplicate_overlapping_entities", "src/intent_parser/deterministic_intent_parser.rs:deduplicate_overlapping_slots"]}
{"id": "C13", "title": "Placeholder substitution replaces exactly the entities", "statement": "Replacing entities by placeholders yields the input text in which each kept entity's characters are replaced by its placeholder and all other characters are unchanged and in order; the returned mapping sends the range of each placeholder in the new text to the range of the entity in the original text, and nothing else.", "quantifier": "every text, every list of well-formed entity ranges, every placeholder function, whose texts are shorter than 32768 characters", "why_tests_cant": "universal over texts and ranges; the implementation tracks a running offset", "anchors": ["src/utils.rs:replace_entities"]}
{"id": "C14", "title": "Long texts break placeholder offsets", "statement": "The bound in C13 is needed: the offset is computed on 16 bits, so there is a text longer than 32767 characters with one entity for which the mapping returned does not point at the placeholder.", "quantifier": "existence of a text and an entity", "why_tests_cant": "nobody writes a unit test with a 32768-character utterance", "anchors": ["src/utils.rs:replace_entities"]}
{"id": "C15", "title": "Ranges found in the rewritten text are mapped back to the original text", "statement": "A range of the rewritten text that lies outside of all placeholders is shifted back to a range of the original text with the same characters; a placeholder range is mapped to the entity it stands for. The answer does not depend on hash iteration order.", "quantifier": "every text, entity list, range of the rewritten text and hash iteration order", "why_tests_cant": "universal over positions and hash orders", "anchors": ["src/intent_parser/deterministic_intent_parser.rs:get_range_shift", "src/intent_parser/deterministic_intent_parser.rs:get_matching_result", "src/utils.rs:replace_entities"]}
{"id": "C16", "title": "Slots of the deterministic parser designate the user's text", "statement": "Every slot returned by the deterministic parser has a value that is the substring of the user's input at the slot's character range, slot names and entities come from the matched intent's declaration, and the slots of an answer are ordered and pairwise disjoint.", "quantifier": "every model, every text, every regex engine behaviour that returns captures inside the text", "why_tests_cant": "universal over regexes and texts", "anchors": ["src/intent_parser/deterministic_intent_parser.rs:get_matching_result", "src/intent_parser/deterministic_intent_parser.rs:deduplicate_overlapping_slots"]}
{"id": "C17", "title": "Confidence scores of the rule based parsers are well formed", "statement": "Scores given by the deterministic and lookup parsers to matching intents are IEEE binary32 numbers in (0, 1] (never NaN), sorted in non-increasing order; fewer slots never means a lower score; a single matching intent gets exactly 1.", "quantifier": "every list of matching results of any length", "why_tests_cant": "floating point rounding over unbounded sums", "anchors": ["src/intent_parser/deterministic_intent_parser.rs:parse_top_intents", "src/intent_parser/lookup_intent_parser.rs:parse_top_intents"]}
{"id": "C18", "title": "Ambiguity rule of the rule based parsers", "statement": "The deterministic and lookup parsers answer an intent only if its score is above one half; at most one intent can be above one half, in binary32 arithmetic, so the answer is the only such intent; when two intents match with the same, minimal, number of slots the answer is 'no intent'.", "quantifier": "every list of matching results of any length, in every order", "why_tests_cant": "floating point rounding; unbounded number of intents", "anchors": ["src/intent_parser/deterministic_intent_parser.rs:parse", "src/intent_parser/lookup_intent_parser.rs:parse"]}
{"id": "C19", "title": "Rule based parsing versus hash iteration order", "statement": "Up to two matching intents, the answer of the ambiguity rule does not depend on the order in which intents are enumerated (hash map order). In general it does: there are matching results for which one enumeration order yields an intent and another yields none, because the binary32 sum depends on the order.", "quantifier": "every list of at most two results, every permutation; existence for the failing half", "why_tests_cant": "hash order is random per process, so a test is flaky at best", "anchors": ["src/intent_parser/deterministic_intent_parser.rs:parse_top_intents", "src/intent_parser/lookup_intent_parser.rs:parse_top_intents"]}
{"id": "C20", "title": "Rule based get_intents lists every intent exactly once and the null intent", "statement": "get_intents of the deterministic and lookup parsers lists each intent of the model exactly once, plus the null intent with score 0 last, in non-increasing order of score; intents that do not match have score 0.", "quantifier": "every model with distinct intent names, every text", "why_tests_cant": "universal over models", "anchors": ["src/intent_parser/deterministic_intent_parser.rs:get_intents", "src/intent_parser/lookup_intent_parser.rs:get_intents"]}
{"id": "C21", "title": "Rule based get_slots is not affected by ambiguity", "statement": "get_slots(text, intent) of a rule based parser fails for an unknown intent and otherwise returns the slots of that intent's own match on the text, whatever other intents match the text, and an empty list when the intent does not match. The single candidate has score exactly 1.", "quantifier": "every model, text, intent", "why_tests_cant": "universal over models", "anchors": ["src/intent_parser/deterministic_intent_parser.rs:get_slots", "src/intent_parser/lookup_intent_parser.rs:get_slots"]}
{"id": "C22", "title": "Stop word removal preserves character positions", "statement": "The deterministic parser's text preparation outputs a text with the same number of characters where each character is either the original one at the same position or a blank; characters of tokens that are not stop words are unchanged; characters of stop words are blanked.", "quantifier": "every text, every tokenizer meeting its contract, every stop word set", "why_tests_cant": "universal over texts", "anchors": ["src/intent_parser/deterministic_intent_parser.rs:preprocess_text"]}
{"id": "C23", "title": "The lookup parser tries every subset of the detected entities exactly once", "statement": "The combinations enumerated are exactly the order-preserving sub-lists of the list of entities, each once (2^n of them for n entities), the empty one first and then larger ones before smaller ones.", "quantifier": "every list of items", "why_tests_cant": "unbounded n, exponential enumeration", "anchors": ["src/intent_parser/lookup_intent_parser.rs:get_items_combinations"]}
{"id": "C24", "title": "Slots of the lookup parser designate detected entities of the user's text", "statement": "Every slot of the lookup parser's answer carries the range and text of an entity detected in the user's input, its name is one of the model's slot names, the ranges are ordered and pairwise disjoint, and the slot value is the substring of the input at the range when entity parsers report matching values.", "quantifier": "every model, text, entity parser behaviour, hash function", "why_tests_cant": "universal over hash functions, including colliding ones", "anchors": ["src/intent_parser/lookup_intent_parser.rs:parse_map_output", "src/intent_parser/lookup_intent_parser.rs:get_candidates"]}
{"id": "C25", "title": "The lookup parser does not crash on well formed models", "statement": "If every identifier stored in the lookup table is a valid index, the lookup parser never panics in a release build, whatever the text; with a table whose identifiers are out of range it panics on the matching text.", "quantifier": "every model and text; existence for the failing half", "why_tests_cant": "universal over models and hash collisions", "anchors": ["src/intent_parser/lookup_intent_parser.rs:parse_map_output"]}
{"id": "C26", "title": "Tag sequences decode to a partition of the tagged tokens", "statement": "Decoding any sequence of tags (IO and BILOU; BIO for sequences over its alphabet) yields token ranges that are non-empty, ordered, pairwise disjoint, inside the sentence, and cover exactly the tokens not tagged O. For BIO with foreign tags overlapping slots can appear (counterexample).", "quantifier": "every tag sequence of any length in each tagging scheme", "why_tests_cant": "model output tags are arbitrary; ill-formed sequences are exponentially many", "anchors": ["src/slot_filler/crf_utils.rs:tags_to_slot_ranges", "src/slot_filler/crf_utils.rs:_tags_to_slots"]}
{"id": "C27", "title": "Tag encoding and decoding round trip", "statement": "Encoding disjoint, ordered slots as BIO or BILOU tags and decoding the tags gives back exactly the slots (ranges and names). For IO it gives them back when no two slots are adjacent, and merges adjacent slots otherwise (counterexample).", "quantifier": "every list of slots on a sentence of any length, the three schemes", "why_tests_cant": "universal over segmentations", "anchors": ["src/slot_filler/crf_utils.rs:get_scheme_prefix", "src/slot_filler/crf_utils.rs:tags_to_slots"]}
{"id": "C28", "title": "Decoded slots are slices of the text", "statement": "tags_to_slots never splits a character: for tokens of the text the slot value is the text from the first character of its first token to the last character of its last token, the character range designates that value, and decoding fails with an error exactly when a tag names a slot the intent does not declare.", "quantifier": "every text (any Unicode), token list and tag list", "why_tests_cant": "byte/char offset arithmetic over all Unicode strings", "anchors": ["src/slot_filler/crf_utils.rs:tags_to_slots"]}
{"id": "C29", "title": "CRF tag names survive encoding", "statement": "Any slot tag (any Unicode string) encoded for the CRF model is decoded to the same tag; distinct tags have distinct encodings; the encoding is pure ASCII.", "quantifier": "every Unicode string", "why_tests_cant": "universal over strings", "anchors": ["src/slot_filler/crf_slot_filler.rs:encode_tag", "src/slot_filler/crf_slot_filler.rs:decode_tag"]}
{"id": "C30", "title": "Sequence probability without a trained tagger, and unknown tags", "statement": "With no trained tagger the probability of a tag sequence is 1 if all tags are O and 0 otherwise, and slot filling returns no slot. With a tagger, tags the model does not know are scored as O when the model has the O tag, otherwise as its first label; known tags are kept; a model with no label at all panics.", "quantifier": "every tag list and label list", "why_tests_cant": "universal over label sets", "anchors": ["src/slot_filler/crf_slot_filler.rs:get_sequence_probability", "src/slot_filler/crf_utils.rs:get_substitution_label"]}
{"id": "C31", "title": "Entity caches are invisible", "statement": "For any history of calls, an entity extraction through the cache returns what the uncached extraction returns on the lower-cased text with the same filter and number of alternatives; errors are returned and not stored.", "quantifier": "every history of calls, every cache capacity", "why_tests_cant": "histories are unbounded; bugs show up only after eviction or key confusion", "anchors": ["src/entity_parser/builtin_entity_parser.rs:extract_entities", "src/entity_parser/custom_entity_parser.rs:extract_entities", "src/entity_parser/utils.rs:Cache::try_cache"]}
{"id": "C32", "title": "Entity caches are bounded and evict the least recently used entry", "statement": "After any history the cache holds at most its capacity, one entry per distinct request, and precisely the most recently used successful requests; a request among the most recently used ones is answered without calling the parser.", "quantifier": "every history of calls, every capacity", "why_tests_cant": "unbounded histories", "anchors": ["src/entity_parser/utils.rs:Cache::try_cache"]}
{"id": "C33", "title": "Concurrent use of the entity parsers", "statement": "When several threads share an engine, for every interleaving each completed extraction returns the value the sequential uncached parser returns for its arguments, the cache invariant is preserved, and no two threads are in the critical section together.", "quantifier": "every number of threads, every schedule, every history", "why_tests_cant": "schedules cannot be enumerated by tests", "anchors": ["src/entity_parser/builtin_entity_parser.rs:extract_entities", "src/entity_parser/custom_entity_parser.rs:extract_entities"]}
{"id": "C34", "title": "A crash inside a cached extraction poisons the cache", "statement": "If the underlying parser panics during a cached call, every later cached call panics, while uncached builtin extraction is unaffected; an error (not a panic) never poisons.", "quantifier": "every history after the panic", "why_tests_cant": "fault histories are not exercised by tests", "anchors": ["src/entity_parser/builtin_entity_parser.rs:extract_entities", "src/entity_parser/custom_entity_parser.rs:extract_entities"]}
{"id": "C35", "title": "Custom entity ranges point into the text that was analysed", "statement": "The custom entity parser analyses the tokens joined by single blanks; a match that starts at a token's first character and ends at a token's last character is reported with the range of the analysed (lower-cased) text that spans those tokens, and no index is out of bounds for a non-empty match inside the joined text.", "quantifier": "every text, every tokenizer meeting its contract, every match aligned on tokens", "why_tests_cant": "universal over spacing and tokenisation", "anchors": ["src/entity_parser/custom_entity_parser.rs:_extract_entities", "src/entity_parser/custom_entity_parser.rs:compute_char_shifts"]}
{"id": "C36", "title": "Lower-casing can shift entity ranges", "statement": "If lower-casing keeps the number of characters of every prefix of the text, entity ranges refer to the user's text. Otherwise they may not: with a capital dotted I (U+0130) before the entity, the reported range designates other characters of the user's text.", "quantifier": "every text whose lower-casing is character-wise; existence for the failing half", "why_tests_cant": "rare Unicode characters are not in test suites", "anchors": ["src/entity_parser/custom_entity_parser.rs:extract_entities", "src/entity_parser/builtin_entity_parser.rs:extract_entities"]}
{"id": "C37", "title": "Affix features are correct for every word", "statement": "The prefix (suffix) feature of length k of a word is its first (last) k characters, absent when the word is shorter than k; k=0 yields the empty string.", "quantifier": "every Unicode word and k", "why_tests_cant": "universal over strings", "anchors": ["src/slot_filler/features_utils.rs:get_word_chunk"]}
{"id": "C38", "title": "Rebuilding the sentence from tokens keeps positions", "statement": "The sentence rebuilt from tokens contains each token's characters at the token's own character range and blanks elsewhere; for normalised tokens joined with blanks, token ranges designate the tokens. The empty token list is the only case that panics.", "quantifier": "every token list meeting the tokenizer contract", "why_tests_cant": "universal over token lists", "anchors": ["src/slot_filler/features_utils.rs:initial_string_from_tokens", "src/slot_filler/features.rs:transform_tokens"]}
{"id": "C39", "title": "Feature offsets put the right feature on the right token", "statement": "Token j carries feature f at offset o with value v iff f evaluated on token j+o gives v (j+o inside the sentence); keys of different (feature, offset) pairs differ when feature names differ and contain no bracket.", "quantifier": "every feature, offset (positive or negative) and sentence length", "why_tests_cant": "universal over offsets and lengths, boundary handling", "anchors": ["src/slot_filler/feature_processor.rs:compute_features"]}
{"id": "C40", "title": "Word clusters: numeric compaction is transparent for canonical numbers only", "statement": "A word's cluster is the last one declared for (the hash of) the word. It is printed as in the file unless it is a number below 65536 written with leading zeros or a plus sign and all rows before it are such numbers too: then it is printed in the usual decimal form. A file with one column makes loading panic; rows of different widths make it fail.", "quantifier": "every cluster file (any number of lines, any names)", "why_tests_cant": "representation switches on the first non numeric value; order dependent", "anchors": ["src/resources/word_clusterer.rs:HashMapWordClusterer"]}
{"id": "C41", "title": "Stemmer and gazetteer lookups", "statement": "The stem of a word is the stem of the last line of the stems file that lists its normalised form (by hash), and the word itself when no line does, so a word written in the file in a form that is not normalised is never found; a word is found in a gazetteer exactly when a non-empty line of the file has its hash; the stop words are exactly the non-empty lines of their file.", "quantifier": "every resource file and word, every hash function", "why_tests_cant": "universal over files and hash collisions", "anchors": ["src/resources/stemmer.rs:HashMapStemmer", "src/resources/gazetteer.rs:HashSetGazetteer"]}
{"id": "C42", "title": "TF-IDF feature vectors", "statement": "The tf-idf vector has one coordinate per vocabulary index; before normalisation a coordinate is the number of occurrences of the vocabulary word times its idf (exactly, in binary32, for counts below 2^24); words outside the vocabulary do not count; the vector does not depend on hash iteration order; an all-zero vector stays zero and never divides by zero.", "quantifier": "every vocabulary, idf table and word list, every hash order", "why_tests_cant": "floating point and hash order", "anchors": ["src/intent_classifier/featurizer.rs:TfidfVectorizer::transform"]}
{"id": "C43", "title": "Word cooccurrence features", "statement": "A pair coordinate is 1 iff the two words occur in the text, first before second (in either order when order is ignored), at distance at most the window, ignoring stop words and unknown words when configured; 0 otherwise. With distinct pairs indexed 0..n-1 no index is out of bounds; a model listing the same pair under two indices can panic on other pairs of the table (counterexample, in every hash order).", "quantifier": "every text, window, option setting, pair table", "why_tests_cant": "universal over windows and texts", "anchors": ["src/intent_classifier/featurizer.rs:CooccurrenceVectorizer"]}
{"id": "C44", "title": "The intent classifier scores every class once and sorts", "statement": "For a text with features and a regression of matching shape, the classifier returns each allowed intent (and the null class) once, with its score, sorted; get_intent returns the first; with binary models the two scores are p and 1-p in binary32; the regression errors exactly when shapes mismatch. The features it reports for such a text are those from which these scores are computed; without a featurizer it reports none.", "quantifier": "every classifier model, text and filter", "why_tests_cant": "universal over shapes and models", "anchors": ["src/intent_classifier/log_reg_intent_classifier.rs:get_intents_with_whitelist", "src/intent_classifier/logreg.rs:MulticlassLogisticRegression::run", "src/intent_classifier/log_reg_intent_classifier.rs:compute_features"]}
{"id": "C45", "title": "Probabilistic parser contract", "statement": "The probabilistic parser answers the classifier's first intent with the slots of that intent's own slot filler; no intent gives no slots; get_slots and parse fail when no slot filler exists for the intent; get_intents is the classifier's.", "quantifier": "every classifier and slot filler behaviour", "why_tests_cant": "universal over components", "anchors": ["src/intent_parser/probabilistic_intent_parser.rs"]}
{"id": "C46", "title": "Injection validates before touching the engine", "statement": "If any entity of an injection request is unknown, or is a grammar based builtin entity, or the request or engine metadata cannot be read, inject fails and the engine directory is unchanged.", "quantifier": "every engine directory, every request", "why_tests_cant": "universal over requests; needs effect ordering", "anchors": ["src/injection/injection.rs:NluInjector::inject", "src/injection/injection.rs:get_entity_parsers_dirs"]}
{"id": "C47", "title": "Injection updates exactly the requested entities", "statement": "When inject succeeds, each requested entity's parser is the previous one updated once with all values given for it (prepended, from scratch when from_vanilla, which is off by default), in the order they were added; nothing outside the directories of the requested entities is touched, even when it fails. Results do not depend on hash iteration order. An injection that fails may nevertheless have updated some of the requested entities.", "quantifier": "every request, directory and hash order", "why_tests_cant": "frame condition over all entities", "anchors": ["src/injection/injection.rs:NluInjector::inject", "src/injection/injection.rs:NluInjector::add_value"]}
{"id": "C48", "title": "Injection is not crash atomic", "statement": "At every crash point all requested entities but at most one have their old files or their complete new parser, and everything else is intact. Injection is not crash atomic: for every requested entity of a successful injection there is a crash point where its parser is lost, the engine no longer loads (for a custom entity), and no later injection of that entity can succeed; a failed write has the same effect without a crash.", "quantifier": "every crash point of every injection", "why_tests_cant": "crash points are not exercised by tests", "anchors": ["src/injection/injection.rs:NluInjector::inject"]}
{"id": "C49", "title": "Injected values: stems and resolution", "statement": "For a custom entity the values handed to the parser are, according to the parser usage, the normalised values without duplicates, their stems (duplicates kept), or the former followed by the latter without duplicates; each keeps as resolved value the value given by the caller; builtin gazetteer values are only normalised. It fails exactly when stems are needed and there is no stemmer.", "quantifier": "every value list, stemmer and usage", "why_tests_cant": "universal over stemmers and lists", "anchors": ["src/injection/injection.rs:stem_entity_value", "src/injection/injection.rs:normalize_entity_value"]}
{"id": "C50", "title": "Only models of the supported version load", "statement": "Loading an engine succeeds only if the model declares exactly the supported model version; with another version an error naming both versions is returned before any resource or parser is loaded.", "quantifier": "every engine directory", "why_tests_cant": "universal over directory contents", "anchors": ["src/nlu_engine.rs:check_model_version", "src/nlu_engine.rs:from_path"]}
{"id": "C51", "title": "Zip extraction stays inside the destination", "statement": "Extracting an engine archive only creates or overwrites files and directories strictly below the destination directory and removes nothing, at every moment of the extraction and whether it succeeds, fails or panics, whatever the entry names (absolute paths, '..', backslashes, NUL). Everything it creates is there for an entry. On success every entry has been extracted and the directory named by the first component of the first entry is returned. Into an empty directory it succeeds exactly when every entry can be read and no file entry is nameless or takes the place of a directory another entry needs; such an archive can make it panic instead of returning an error (finding), and nothing else can.", "quantifier": "every archive (any entry names and contents), every destination, every failure of a system call, every crash point", "why_tests_cant": "adversarial entry names are unbounded", "anchors": ["src/utils.rs:extract_nlu_engine_zip_archive", "src/nlu_engine.rs:SnipsNluEngine::from_zip"]}
{"id": "C52", "title": "C API behaves as the Rust API", "statement": "For every sequence of C calls, each request on a live handle returns OK and writes the converted result of the corresponding Rust call on the engine the handle was created with, or returns KO and records the error of that call; null filter pointers mean no filter; a null handle, a null or non UTF-8 text and a handle on which a call has panicked are refused with KO; a handle keeps its engine and its answers whatever is done on other handles, until it is destroyed; behaviour is undefined only for handles that do not exist, a null archive, and string arrays without data or with null elements.", "quantifier": "every sequence of calls on any number of handles, every argument including null pointers and invalid texts, every failure or panic of the Rust calls", "why_tests_cant": "quantifies over all histories of several handles and all byte strings", "anchors": ["ffi/src/lib.rs"]}
{"id": "C53", "title": "Entity extraction ignores letter case", "statement": "Two texts with the same lower-casing give the same entities, cached or not.", "quantifier": "every pair of texts, every history", "why_tests_cant": "universal over texts and histories", "anchors": ["src/entity_parser/builtin_entity_parser.rs:extract_entities", "src/entity_parser/custom_entity_parser.rs:extract_entities"]}
{"id": "C54", "title": "Slot filling never crashes", "statement": "A slot filler built from a model never panics on any text, provided the entity parsers and the tagging library do not panic, the tokenizer and the tagger meet their contracts, and n-gram sizes plus positions fit in 64 bits. An n-gram size of 2^64-1 panics on the second token (counterexample without the bound).", "quantifier": "every slot filler model (feature list, offsets, scheme, mapping), resources and text", "why_tests_cant": "the feature list, its arguments and the text are all arbitrary; a missing bound check shows only for particular combinations", "anchors": ["src/slot_filler/crf_slot_filler.rs:get_slots", "src/slot_filler/feature_processor.rs:compute_features", "src/slot_filler/features.rs"]}
{"id": "C55", "title": "Entity match features mark exactly the tokens of an entity", "statement": "The custom and builtin entity match features of a token are absent iff no detected entity shares a character with the token; otherwise the feature is the scheme prefix (B-, I-, L-, U-) of the token's position among the tokens touched by the first detected entity that touches it.", "quantifier": "every sentence, tagging scheme and list of detected entities", "why_tests_cant": "universal over overlaps between token ranges and entity ranges", "anchors": ["src/slot_filler/features.rs:CustomEntityMatchFeature", "src/slot_filler/features.rs:BuiltinEntityMatchFeature", "src/slot_filler/crf_utils.rs:get_scheme_prefix"]}
{"id": "C56", "title": "N-gram features cover exactly n tokens", "statement": "The n-gram (shape n-gram) feature of token i is the join of the words (shapes) of tokens i..i+n-1, present iff these tokens exist (and n>0 for shapes); words outside of the gazetteer are replaced by the rare word marker.", "quantifier": "every sentence, position and n with i+n below 2^64", "why_tests_cant": "universal over positions and sizes, boundary handling", "anchors": ["src/slot_filler/features.rs:NgramFeature", "src/slot_filler/features.rs:ShapeNgramFeature"]}
{"id": "C57", "title": "Resolved values of slots", "statement": "The value and the alternatives of a slot are those of the first entity of its kind found exactly at its range in the text; when there is none, those of the last entity of its kind found in the slot's own text (for a custom entity only if it covers as many characters as the slot); when there is none either, a slot of an automatically extensible custom entity gets its own text as value and any other slot is dropped. The text is searched for the entities of all the slots, with the number of alternatives the caller asked for. A slot whose entity is neither a custom entity nor a builtin one makes the call fail.", "quantifier": "every list of slots, text, dataset and behaviour of the entity parsers", "why_tests_cant": "universal over slots and over the answers of the entity parsers", "anchors": ["src/slot_utils.rs:resolve_builtin_slot", "src/slot_utils.rs:resolve_custom_slot", "src/nlu_engine.rs:resolve_slots"]}
{"id": "C58", "title": "Resources are read from the files their names designate", "statement": "In a loaded engine each gazetteer, word cluster table, stem table and stop word list named in the resource metadata has the contents of the file of that name, with what follows the last dot of the name replaced by txt, in the directory for its kind; hence two names that only differ after their last dot share one file (finding).", "quantifier": "every engine directory that loads, every resource name without directory part", "why_tests_cant": "universal over names and file contents", "anchors": ["src/resources/loading.rs:load_gazetteers", "src/resources/loading.rs:load_word_clusterers", "src/resources/loading.rs:load_stemmer", "src/resources/loading.rs:load_stop_words"]}
{"id": "C59", "title": "Loading depends only on the engine directory", "statement": "When the names in the model files are relative and without '..', loading an engine gives the same result in any two file trees that agree below its directory. Names are not checked: an absolute name or one with '..' makes loading depend on files outside of the directory (finding).", "quantifier": "every pair of file trees, every engine directory", "why_tests_cant": "non-interference over all file trees", "anchors": ["src/nlu_engine.rs:SnipsNluEngine::from_path", "src/resources/loading.rs:load_shared_resources", "src/intent_parser/probabilistic_intent_parser.rs:from_path"]}
{"id": "C60", "title": "Loaded engines honour filters", "statement": "When every intent classifier of a model lists at least two classes including the null class, an engine loaded from it never answers, as main intent or as alternative, an intent that the whitelist or the blacklist of the call excludes or that the engine does not know.", "quantifier": "every engine directory that loads, every input, filter and number of alternatives", "why_tests_cant": "universal over models on disk and inputs", "anchors": ["src/nlu_engine.rs:SnipsNluEngine::from_path", "src/nlu_engine.rs:parse_with_alternatives"]}
{"id": "C61", "title": "An engine can be moved or archived", "statement": "When no name in the model leaves its directory, an engine loads the same from any directory that has the same contents, and loading a zip archive of an engine directory gives the same engine (or the same error) as loading the directory itself.", "quantifier": "every engine directory, every other location, every archive of it (any order of entries, with or without entries for non-empty directories)", "why_tests_cant": "relates two file trees of arbitrary contents; a test fixes one engine and one place", "anchors": ["src/nlu_engine.rs:SnipsNluEngine::from_path", "src/nlu_engine.rs:SnipsNluEngine::from_zip", "src/utils.rs:extract_nlu_engine_zip_archive", "src/resources/loading.rs:load_shared_resources"]}
{"id": "C62", "title": "The lookup parser recognises exactly what was learnt", "statement": "A text is recognised as an intent exactly when, once some of the entities found in it are replaced by placeholders, ignored words dropped and letters lowered, it is a key of the learnt table for an allowed intent. The answer is one of the recognised intents with the fewest slots the table allows, the slots being those of the replaced entities in order; when exactly one intent is recognised it is answered with score 1, and when none is, no intent is answered. A text learnt in the form of its own intent is also recognised when only that intent is allowed; a text recognised only through its form for another intent is not, and then get_slots disagrees with parse.", "quantifier": "every model, language, text, intent filter, entity parser behaviour and hash map order", "why_tests_cant": "an equivalence over all texts and all models; tests sample accepted texts and cannot show that nothing else is accepted", "anchors": ["src/intent_parser/lookup_intent_parser.rs:LookupIntentParser::parse_top_intents", "src/intent_parser/lookup_intent_parser.rs:get_candidates", "src/intent_parser/lookup_intent_parser.rs:preprocess_text", "src/intent_parser/lookup_intent_parser.rs:replace_entities_with_placeholders"]}
{"id": "C63", "title": "The deterministic parser recognises exactly what its patterns describe", "statement": "A text is recognised as an intent exactly when one of the intent's patterns matches the text with its ignored words blanked, or that text with its entities replaced by placeholders. The patterns are tried in order, each first on the plain text; the first match gives the slots: one for each named group, named after the part of the group name before the underscore, at the group's range in the user's text, overlaps resolved. The answer is a recognised intent; when exactly one is recognised it is answered with score 1 and those slots; when none is, no intent is answered; get_slots gives the same slots.", "quantifier": "every model, compiled pattern behaviour, text of less than 2^15 characters, filter, entity parser behaviour and hash map order", "why_tests_cant": "an equivalence over all texts, patterns and entity parser results", "anchors": ["src/intent_parser/deterministic_intent_parser.rs:DeterministicIntentParser::parse_top_intents", "src/intent_parser/deterministic_intent_parser.rs:get_matching_result", "src/intent_parser/deterministic_intent_parser.rs:preprocess_text"]}
{"id": "C64", "title": "When the deterministic parser answers", "statement": "If every allowed intent that has slots has patterns, the entity parsers answer and each named group stands for a slot of its intent, parse answers every text. It panics exactly when the first matching pattern of an allowed intent has a group that stands for no slot of the intent. An allowed intent that has slots declared and no patterns makes parse refuse every text, even those that other intents match: loading accepts such models.", "quantifier": "every model, text, filter and entity parser behaviour", "why_tests_cant": "absence of failures over all texts, and an exact panic condition over all models", "anchors": ["src/intent_parser/deterministic_intent_parser.rs:DeterministicIntentParser::parse_top_intents", "src/intent_parser/deterministic_intent_parser.rs:get_matching_result", "src/intent_parser/deterministic_intent_parser.rs:DeterministicIntentParser::new"]}
{"id": "C65", "title": "Slots of an answer quote the user's text", "statement": "For an engine loaded from files, whichever parser understands the text, the raw value of every slot of a parse answer or of one of its alternatives, and of a get_slots answer, is exactly the text of the input at the slot's range; the slots of one intent are in order and do not overlap.", "quantifier": "every engine directory whose taggers answer one tag of their scheme per token, every text, intent filter, number of alternatives, entity parser behaviour and hash map order", "why_tests_cant": "the claim spans all parsers of all loadable engines and all texts, including irregular blanks and upper case letters", "anchors": ["src/nlu_engine.rs:SnipsNluEngine::from_path", "src/nlu_engine.rs:SnipsNluEngine::parse_with_alternatives", "src/nlu_engine.rs:SnipsNluEngine::get_slots_with_alternatives", "src/slot_utils.rs:resolve_slots", "src/slot_filler/crf_utils.rs:tags_to_slots"]}
{"id": "C66", "title": "What extract_slot quotes", "statement": "A slot extracted for a builtin entity quotes the input at its range. A slot extracted for a custom entity is either the whole input with its whole range (extensible entity, nothing found), or a part of the lower-cased words of the input joined by single blanks, together with the range of the input that this part comes from. For inputs in lower case with single blanks it quotes the input; in general it does not: the user's letter case and blanks are lost.", "quantifier": "every loaded engine, intent, slot and text of less than 2^29 characters", "why_tests_cant": "holds for all texts and gazetteers; tests use lower case texts with single blanks, where the difference does not show", "anchors": ["src/nlu_engine.rs:SnipsNluEngine::extract_slot_with_alternatives", "src/nlu_engine.rs:extract_custom_slot", "src/nlu_engine.rs:extract_builtin_slot", "src/entity_parser/custom_entity_parser.rs:CachingCustomEntityParser::_extract_entities"]}
{"id": "C67", "title": "Fallback resolution of a custom slot", "statement": "A custom slot whose range no entity of the text covers exactly is analysed alone. If its text is in lower case with single blanks, the last match gives its value exactly when it covers the whole slot; otherwise the slot keeps its own text as value if the entity is extensible and is dropped if not. With other blanks or letter case changes of length, a match that covers the whole slot can be refused and the slot dropped.", "quantifier": "every slot, gazetteer, list of entities found in the text, and language", "why_tests_cant": "an equivalence over all slots and gazetteers", "anchors": ["src/slot_utils.rs:resolve_custom_slot", "src/entity_parser/custom_entity_parser.rs:CachingCustomEntityParser::_extract_entities"]}
{"id": "C68", "title": "No call on a loaded engine panics", "statement": "For an engine loaded from a directory, parse, get_intents, get_slots and extract_slot return a value or an error and never panic, provided that the model files are sound (positions inside the lists they point into, distinct word pairs, named groups declared as slots, finite weights of at most 2^64) and that the texts have less than 2^29 characters.", "quantifier": "every engine directory with sound model files, every text, filter, intent and slot name, number of alternatives, behaviour of the entity parsers within their contracts, and hash map order", "why_tests_cant": "a panic aborts the host application through the C interface; its absence must hold for all texts and all trained models", "anchors": ["src/nlu_engine.rs:SnipsNluEngine::parse_with_alternatives", "src/nlu_engine.rs:SnipsNluEngine::get_intents", "src/nlu_engine.rs:SnipsNluEngine::get_slots_with_alternatives", "src/nlu_engine.rs:SnipsNluEngine::extract_slot_with_alternatives", "src/intent_classifier/featurizer.rs", "src/intent_classifier/log_reg_intent_classifier.rs", "src/intent_parser/deterministic_intent_parser.rs", "src/intent_parser/lookup_intent_parser.rs", "src/slot_filler/crf_slot_filler.rs"]}
{"id": "C69", "title": "Loading never panics", "statement": "Loading an engine from a directory gives an engine or an error, whatever files are missing, truncated or of another kind, unless a classifier file has a table of coefficients with a missing coefficient or a word cluster file has a single column on its first row; in these two cases loading panics.", "quantifier": "every file tree, path and hash map order", "why_tests_cant": "ranges over all contents of all files of the directory", "anchors": ["src/nlu_engine.rs:SnipsNluEngine::from_path", "src/resources/loading.rs", "src/intent_classifier/logreg.rs:MulticlassLogisticRegression::new", "src/resources/word_clusterer.rs:HashMapWordClusterer::from_reader"]}
{"id": "C70", "title": "The C interface never aborts its host", "statement": "In every sequence of calls of the C interface (creation from a directory or an archive, parse, get_slots, get_intents, destruction, with null pointers and texts that are not UTF-8 included) on engines whose files are sound, no call panics and no client is ever poisoned, so that each later call on it is still answered. An archive of a sound engine directory counts as sound wherever it is unpacked.", "quantifier": "every history of calls, every sound engine directory, every text of moderate length", "why_tests_cant": "ranges over all histories of calls and all engines", "anchors": ["ffi/src/lib.rs", "src/nlu_engine.rs"]}
{"id": "C71", "title": "Memory of the C interface", "statement": "Each result, json text, version or error message that a C call gives is a new object that holds the converted result of the Rust call; failed calls allocate nothing; over any history the pointers given to the caller are exactly those that it has given back and those in use, no address being in use twice; an object keeps its contents until it is destroyed; destroying it frees it and nothing else; destroying null is refused; undefined behaviour only comes from objects that are not there, functions of another kind, or misused arguments.", "quantifier": "every history of calls, every allocator that gives unused addresses", "why_tests_cant": "ranges over all interleavings of calls and destructions; leaks and double frees are not seen by tests", "anchors": ["ffi/src/lib.rs:snips_nlu_engine_destroy_string", "ffi/src/lib.rs:snips_nlu_engine_destroy_result", "ffi/src/lib.rs:snips_nlu_engine_destroy_slots", "ffi/src/lib.rs:snips_nlu_engine_destroy_intent_classifier_results"]}
{"id": "C72", "title": "The Python wrapper", "statement": "parse, get_slots and get_intents of the Python NLUEngine give the json of what the Rust engine answers, or raise with its error, on texts cut at the first zero character; numbers of alternatives are passed by their 32 lower bits, and numbers too long for a C long raise; constructors give the engine of the directory or archive; whatever a program does the wrapper never makes an undefined call, and unless the process crashes the only memory of the library in use is one client for each live engine. A whole program gets, call after call, what it would get if its variables held engines of the Rust interface: a variable answers for the engine last created in it, and using one that holds none raises.", "quantifier": "every Unicode text, filter and number of alternatives, every Python program over any number of variables", "why_tests_cant": "ranges over all programs; leaks are not seen by tests", "anchors": ["platforms/python/snips_nlu_rust/nlu_engine.py", "platforms/python/snips_nlu_rust/utils.py"]}
{"id": "C73", "title": "The Kotlin wrapper", "statement": "The functions of the Kotlin NluEngine give the conversion (or the json) of what the Rust engine answers, or throw its error, on texts cut at the first zero character and with negative numbers read as huge ones; a program that does not use an engine after closing it and passes no empty filter makes no undefined call, and unless the process crashes the only memory in use is the engines that are not closed and the results whose conversion threw; an empty filter, a second close or a use after close is undefined. A whole program gets, call after call, what it would get with engines of the Rust interface.", "quantifier": "every text, filter and number of alternatives, every Kotlin program over any number of engines", "why_tests_cant": "ranges over all programs; leaks and undefined calls are not seen by tests", "anchors": ["platforms/kotlin/src/main/kotlin/ai/snips/nlu/NluEngine.kt"]}
{"id": "C74", "title": "The Swift wrapper", "statement": "The functions of the Swift NluEngine give the conversion of what the Rust engine answers, or throw its error, on texts cut at the first zero character; a program that loads no empty data makes no undefined call, and unless the process crashes the only memory of the library in use is one client for each live engine and one message for each error thrown; numbers that do not fit in 32 bits crash the process and empty data is undefined. A whole program gets, call after call, what it would get if its variables held engines of the Rust interface.", "quantifier": "every text, filter and number of alternatives, every Swift program over any number of variables", "why_tests_cant": "ranges over all programs; leaks are not seen by tests", "anchors": ["platforms/swift/SnipsNlu/SnipsNlu/NluEngine.swift"]}
{"id": "C75", "title": "What the features of a slot filler mean", "statement": "Every entry of the feature list of a slot filler's model file builds the features that its name and arguments describe (digits, lengths, position, n-grams, shapes, prefixes, suffixes, entity matches, word clusters...), with the stated names, offsets and values at every token; entries that describe no feature are an error and never a panic; the slot filler has the tagging scheme, language and slots of its file. Tagging scheme codes inside a feature entry are taken modulo 256.", "quantifier": "every feature entry, every resources, every list of tokens and position", "why_tests_cant": "a wrong value of one feature changes predictions silently, for some tokens only", "anchors": ["src/slot_filler/features.rs", "src/slot_filler/macros.rs", "src/slot_filler/crf_utils.rs", "src/slot_filler/crf_slot_filler.rs:CRFSlotFiller::new"]}
{"id": "C76", "title": "What the json documents of an engine mean", "statement": "Each json document of a model directory is read exactly as what its fields say: required fields must be there once and have the right type, optional ones may be missing or null, defaults are used when missing, unknown fields are ignored, keys of maps are unique afterwards and the last value of a repeated key counts, numeric keys are decimal numbers in range; every other document is refused with an error.", "quantifier": "every json value in place of every kind of document, every iteration order of maps", "why_tests_cant": "ranges over all documents; a swapped or forgotten field is only seen on models that use it", "anchors": ["src/models/nlu_engine.rs", "src/models/processing_unit_metadata.rs", "src/models/intent_parser.rs", "src/models/intent_classifier.rs", "src/models/slot_filler.rs", "src/resources/loading.rs", "src/entity_parser/custom_entity_parser.rs"]}
{"id": "C77", "title": "A loaded engine is what its files say", "statement": "An engine loads from a directory exactly when the directory describes one, and it is the engine described: its parsers are those listed in nlu_engine.json, in order, each of the kind that its metadata.json names and made from the documents of its own directory (classifier in intent_classifier, featurizer and vectorizers in the named directories, slot fillers in the directories listed for their intents); entity parsers come from the named directories and get lower-cased text. A text that a rule based parser was taught for one intent only is answered with this intent and score 1 when the rule based parsers listed before were not taught it; an engine with rule based parsers only answers nothing else than what it was taught.", "quantifier": "every directory, every text and filter, every iteration order of maps", "why_tests_cant": "ranges over all model directories and texts", "anchors": ["src/nlu_engine.rs:SnipsNluEngine::from_path", "src/nlu_engine.rs:SnipsNluEngine::load_intent_parsers", "src/intent_parser/mod.rs:build_intent_parser", "src/intent_classifier/mod.rs:build_intent_classifier", "src/slot_filler/mod.rs:build_slot_filler", "src/intent_classifier/featurizer.rs", "src/intent_parser/probabilistic_intent_parser.rs"]}
{"id": "C78", "title": "Swift results say what the library answered", "statement": "When the C structure of an answer stands for the answer of the library, the value that the Swift wrapper returns says the same: input, intent, score, ranges, raw text, entity, slot name, alternatives, and each value with its kind, unit, grain and precision. The exceptions are exact: the end of a time interval is shown as its beginning, an ordinal outside 32 bits is shown by its lower half, and a city, country or region anywhere in the answer makes the call throw. No answer crashes the process or reads memory that is not there.", "quantifier": "every answer, every C structure standing for it, every text and filter", "why_tests_cant": "ranges over all kinds of values at every place of a result, including those that the test fixtures never produce", "anchors": ["platforms/swift/SnipsNlu/SnipsNlu/NluEngine.swift", "platforms/c/libsnips_nlu.h"]}
{"id": "C79", "title": "Threads sharing C clients", "statement": "When several threads of a host call the C interface on shared clients, for every interleaving the calls reply what they would reply if made one after the other, in an order that respects each thread's program and the time at which calls return; each thread has its own last error; at most one thread works on an engine; the threads are never all blocked and the number of steps is bounded. Threads that use only the clients they were given and free none meet nothing undefined, and a client that no call makes panic replies to each call as if it were the only call. After a panic in one thread the client refuses every call of every thread, and other clients are not affected.", "quantifier": "every number of threads, every program of each thread, every schedule, every address the allocator gives", "why_tests_cant": "schedules cannot be enumerated by tests", "anchors": ["ffi/src/lib.rs:CSnipsNluEngine", "ffi/src/lib.rs:get_nlu_engine!", "ffi/src/lib.rs:snips_nlu_engine_get_last_error"]}
{"id": "C80", "title": "Threads sharing an engine", "statement": "When several threads of a Rust program share one engine, for every interleaving, and as long as no entity parser and no tagger has panicked, each call returns what it returns on an engine without caches, locks and other threads. At most one thread works under each lock; a thread that needs a lock either gets it or waits for a thread that can go on, and a lock is given back after at most four steps; a call that needs finitely many answers of the parsers and taggers completes. A lock is poisoned only by a panic of a parser or tagger under it, and then for ever. Every such panic poisons the lock.", "quantifier": "every number of threads, every sequence of calls of each thread, every interleaving of their steps, every directory an engine is loaded from", "why_tests_cant": "schedules cannot be enumerated by tests", "anchors": ["src/entity_parser/builtin_entity_parser.rs:CachingBuiltinEntityParser::extract_entities", "src/entity_parser/custom_entity_parser.rs:CachingCustomEntityParser::extract_entities", "src/slot_filler/crf_slot_filler.rs:CRFSlotFiller::get_slots", "src/entity_parser/utils.rs:Cache::try_cache"]}
{"id": "C81", "title": "Engines loaded after an injection", "statement": "Whatever values are injected, and wherever the injection stops, an engine loaded from the directory afterwards is the one the files of before describe, except for the entity parsers, which are those the files of after describe: intent parsers, classifier, slot fillers, resources and dataset metadata are untouched. If the engine loaded before and the injection succeeds, the engine loads again, and its entity parsers are put together from the gazetteer parsers of before, those of the requested entities updated once with the requested values and all others unchanged.", "quantifier": "every engine directory whose gazetteer parsers do not share files with each other or with the other units, every request, every crash point of the injection, every text later given to the engine", "why_tests_cant": "ranges over all directories, requests and crash points", "anchors": ["src/injection/injection.rs:NluInjector::inject", "src/nlu_engine.rs:SnipsNluEngine::from_path", "src/resources/loading.rs:load_shared_resources"]}
{"id": "C82", "title": "Answers do not depend on hash seeds, up to two matching intents", "statement": "Each process that loads a model directory gives its hash tables other iteration orders. Whether the directory loads does not depend on them. Neither does the answer of parse (intent, confidence, slots, slot alternatives, without intent alternatives) to a text that no rule based parser of the engine was taught for more than two allowed intents, nor the answer of get_slots to any text, nor the slot extracted for a slot name. The same holds for parse with intent alternatives when no two intents get the same confidence; with equal confidences the alternatives can differ, even between two calls on one engine. get_intents lists the same intents with the same confidences, those with equal confidences possibly in another order. The limit of two is sharp: there is a directory with three intents and a text to which one process answers an intent and another process no intent.", "quantifier": "every engine directory, every pair of iteration orders for all the hash tables built while loading and answering, every text, filter and number of slot alternatives", "why_tests_cant": "a test process sees one set of hash seeds; the claim compares all of them, for all models and texts", "anchors": ["src/nlu_engine.rs:SnipsNluEngine::from_path", "src/nlu_engine.rs:parse_with_alternatives", "src/nlu_engine.rs:get_slots_with_alternatives", "src/nlu_engine.rs:get_intents", "src/intent_parser/deterministic_intent_parser.rs:DeterministicIntentParser", "src/intent_parser/lookup_intent_parser.rs:LookupIntentParser"]}
{"id": "C83", "title": "Letter case does not matter, except for cooccurrence features and word shapes", "statement": "Two texts that differ only by the case of letters get the same answer: same intent and confidence, same slots at the same ranges with the same entities and slot alternatives (the raw values differ by case only; an unresolved value of an extensible entity is the raw value), the same failure if parsing fails. This holds for parse (with intent alternatives when no two intents get the same confidence) and for get_intents (up to the order of equal confidences) when the engine has no cooccurrence features, for parse and get_slots when no slot filler uses the shape of words, for any engine when a slot is extracted from a text. Conditions: no pattern of the directory sets a flag of regular expressions, no lookup table was taught the text for more than two allowed intents. Both exceptions are real: with cooccurrence features a capital letter can change the intent, with word shapes it can change the slots.", "quantifier": "every engine directory that loads, every pair of texts that differ by the case of letters of equal encoded length, every filter, intent, slot name and number of slot alternatives", "why_tests_cant": "a test compares a few spellings of one sentence on one trained engine; the claim is about all spellings of all texts on all engines, and the exceptions sit in two features that most tests do not enable", "anchors": ["src/nlu_engine.rs:parse_with_alternatives", "src/nlu_engine.rs:get_slots_with_alternatives", "src/nlu_engine.rs:get_intents", "src/nlu_engine.rs:extract_slot_with_alternatives", "src/intent_classifier/featurizer.rs:CooccurrenceVectorizer::transform", "src/slot_filler/features.rs:ShapeNgramFeature", "src/intent_parser/deterministic_intent_parser.rs:compile_regexes_per_intent"]}
{"id": "C84", "title": "Forbidding intents that are not the answer does not change the answer", "statement": "If a text gets an answer under a filter of intents, and a narrower filter (fewer intents in a whitelist, or more in a blacklist) still allows the intent of this answer, parse gives the same answer under the narrower filter: same intent, same confidence, same slots and slot alternatives; an answer without intent stays. This holds when no rule based parser of the engine knows two readings of the text under the wider filter, and tables know the text thanks to the entities of its own intent. The intent classifier alone needs no such condition. The condition on rule based parsers is needed: when the patterns of two intents know the text, forbidding one of them can turn an allowed answer of a later parser into the other intent. The intent alternatives that the narrower filter allows stay alternatives too, if it allows the most confident of the intents that the wider filter allows; if it forbids that one, the first of them becomes the most confident allowed intent, which is never listed as an alternative, and the others stay.", "quantifier": "every engine directory that loads, every text, every pair of filters one of which allows no more intents than the other, every number of slot alternatives", "why_tests_cant": "a test tries a few filters on a few texts; the claim relates two calls for all filters, texts and engines, and the exception needs a text taught to two intents", "anchors": ["src/nlu_engine.rs:parse_with_alternatives", "src/nlu_engine.rs:get_intents_whitelist", "src/intent_classifier/log_reg_intent_classifier.rs:get_intents_with_whitelist", "src/intent_parser/deterministic_intent_parser.rs:parse", "src/intent_parser/lookup_intent_parser.rs:parse"]}
{"id": "C85", "title": "get_slots returns the slots of parse", "statement": "If parse answers an intent with at least one slot, get_slots for this text and this intent succeeds and returns exactly these slots, whatever the filter given to parse, when all the parsers of the engine but the last one are rule based, all of them list this intent, and none of them knows two readings of the text. A rule based parser that does not list the intent makes get_slots fail with an unknown intent error, although parse answers this intent. If parse answers an intent without slots, get_slots can return slots: it asks the next parsers until one finds slots, where parse stops at the first parser that finds an intent.", "quantifier": "every engine directory that loads, every text, filter and number of slot alternatives", "why_tests_cant": "tests call parse or get_slots on chosen sentences; the claim relates the two calls for all texts and engines", "anchors": ["src/nlu_engine.rs:parse_with_alternatives", "src/nlu_engine.rs:get_slots_with_alternatives", "src/intent_parser/deterministic_intent_parser.rs:get_slots", "src/intent_parser/lookup_intent_parser.rs:get_slots"]}
{"id": "C86", "title": "The intent with the greatest linear score wins, until confidences saturate", "statement": "The confidence of an intent is a non-decreasing function of its linear score (its trained weights times the features of the text, plus its intercept), computed in 32 bit floats. get_intents lists intents by decreasing linear score; two intents are listed otherwise only if their confidences are equal, and then the one that comes first in the model's list of classes comes first. With a single row of weights (two classes) the sign of the linear score decides. The confidence is exactly 1 as soon as exp(-score) is at most 2^-24 (a linear score of about 16.64), exactly 0 when exp(-score) overflows. So the greatest linear score does not always win: of two intents with linear scores 17 and 100, the first one of the list is the answer.", "quantifier": "every classifier, text, filter and every non-decreasing exponential", "why_tests_cant": "tests compare confidences of a few texts; rounding is monotone for all 2^32 scores only by an argument, and saturation needs scores that test models do not reach", "anchors": ["src/intent_classifier/logreg.rs:run", "src/intent_classifier/logreg.rs:logit", "src/intent_classifier/log_reg_intent_classifier.rs:get_intents_with_whitelist", "src/intent_classifier/log_reg_intent_classifier.rs:get_intent"]}
{"id": "C87", "title": "Confidences are between 0 and 1", "statement": "The confidence of the intent that parse answers with a loaded engine, those of its alternatives and those of get_intents are 32 bit floats between 0 and 1, provided that the linear scores of its classifiers are numbers. When all the parsers of the engine are rule based (and there is one), an intent is answered with a confidence above one half and the absence of intent with the confidence 1. When the linear score of a class is not a number (for instance a trained coefficient that overflows 32 bits, times a feature that is 0), get_intents does not answer.", "quantifier": "every engine directory that loads, text, filter, numbers of alternatives and hash seeds", "why_tests_cant": "tests look at the confidences of a few texts; the bounds depend on rounding in the division of weights and in the logistic function for all values", "anchors": ["src/nlu_engine.rs:parse_with_alternatives", "src/nlu_engine.rs:get_intents", "src/intent_parser/deterministic_intent_parser.rs:get_intents", "src/intent_parser/lookup_intent_parser.rs:get_intents", "src/intent_classifier/log_reg_intent_classifier.rs:get_intents_with_whitelist"]}
{"id": "C88", "title": "What get_intents lists for a loaded engine", "statement": "Every entry of get_intents names an intent that the files of some parser of the engine list (or the absence of intent). The intents of the first parser, when it is rule based, are all listed, and so is the absence of intent. An intent that some rule based parser was taught the text for is listed with a positive confidence, and with the confidence 1 when this parser was taught the text for this intent only. Conversely an entry has a positive confidence only if some rule based parser was taught the text for its intent or some classifier lists it.", "quantifier": "every engine directory that loads, text and hash seeds", "why_tests_cant": "the list merges the lists of all parsers through hash maps; that no intent is lost or invented, whatever the files and the number of parsers, is not visible on examples", "anchors": ["src/nlu_engine.rs:get_intents", "src/intent_parser/deterministic_intent_parser.rs:get_intents", "src/intent_parser/lookup_intent_parser.rs:get_intents", "src/intent_parser/probabilistic_intent_parser.rs:get_intents"]}
{"id": "C89", "title": "The answer of parse and the first intent of get_intents", "statement": "Without filters, an intent that parse answers is listed by get_intents with at least the same confidence (if that is positive). If parse answers it with the confidence 1 and no other intent is listed with the confidence 1, it is the first entry of get_intents and the alternatives of the answer do not repeat it. In an engine whose single parser is rule based, an answered intent is always the first entry of get_intents, with the same confidence; with a single probabilistic parser so it is unless another intent has the same confidence. With several parsers the two can differ: a later parser that parse does not ask can be more confident of another intent. When all the parsers are rule based and none was taught the text, parse answers no intent with the confidence 1 although get_intents gives every entry, including the absence of intent, the confidence 0.", "quantifier": "every engine directory that loads, text, numbers of alternatives and hash seeds", "why_tests_cant": "parse stops at the first parser that answers and get_intents merges all the parsers; whether the two agree depends on every possible combination of confidences and on the order of the merge", "anchors": ["src/nlu_engine.rs:parse_with_alternatives", "src/nlu_engine.rs:get_intents", "src/intent_parser/deterministic_intent_parser.rs:parse", "src/intent_parser/deterministic_intent_parser.rs:get_intents", "src/intent_parser/lookup_intent_parser.rs:parse", "src/intent_classifier/log_reg_intent_classifier.rs:get_intent"]}
{"id": "C90", "title": "Blanks before and after a text", "statement": "Blanks added before and after a non-empty text do not change what the engine understands: parse answers the same intent with the same confidence and the same slots with the same raw values, resolved values, entities and confidences, each n characters further where n is the number of blanks before the text; so do get_slots and, without tied confidences, the intent alternatives with their slots; get_intents lists the same intents with the same confidences. It needs the pattern rules to allow blanks at both ends, as the trained ones do ('^\\s*...\\s*$'). An extracted slot is at the same words too, unless its value is the whole text: then the blanks become part of the value. The empty text is an exception: no intent is found in it, whereas a blank text is given to the classifier.", "quantifier": "every engine directory that loads, text, number of blanks before and after, filter, intent, slot, number of alternatives and hash seed", "why_tests_cant": "every offset computed by the engine (tokens, placeholders, shifts back to the original text, tag offsets) depends on where the text begins, and each text, engine and number of blanks is another case", "anchors": ["src/nlu_engine.rs:parse_with_alternatives", "src/nlu_engine.rs:get_slots_with_alternatives", "src/nlu_engine.rs:get_intents", "src/nlu_engine.rs:extract_slot_with_alternatives", "src/intent_parser/deterministic_intent_parser.rs:preprocess_text", "src/intent_parser/lookup_intent_parser.rs:parse", "src/intent_classifier/log_reg_intent_classifier.rs:get_intent", "src/slot_filler/crf_slot_filler.rs:get_slots", "src/entity_parser/custom_entity_parser.rs"]}
{"id": "C91", "title": "Histories of injections", "statement": "After any sequence of injections into an engine directory, some of which may have failed or been interrupted at any point, the gazetteer parser of an entity that no failed or interrupted injection named has been updated exactly once for each injection that gave it values, in the order of the injections, and is untouched if none did; files outside the directories of the named entities are untouched. If all succeeded, the engine still loads, with the same dataset metadata and resources, and two successful histories that give each entity the same values in the same order leave the same engine: injections into different entities can be exchanged, merged into one request or divided. But once the parser of one entity does not load, as after an interrupted injection, every later injection into any entity fails and changes nothing unless it comes with resources of its own.", "quantifier": "every engine directory, sequence of injection requests, outcome and interruption point of each, hash seed, entity and second sequence", "why_tests_cant": "histories are unbounded, each interruption point of each injection starts another one, and the map orders inside each request are random", "anchors": ["src/injection/injection.rs:inject", "src/injection/injection.rs:add_value", "src/injection/injection.rs:from_vanilla", "src/resources/loading.rs:load_engine_shared_resources", "src/nlu_engine.rs:from_path"]}
{"id": "C92", "title": "Injecting and loading at the same time", "statement": "When any number of injections and loadings run at the same time on one engine directory, in any interleaving, files outside the directories of the named entities never change and the other entities keep their parsers. Injections that name distinct entities do not disturb each other: as soon as one returns without error its entities have exactly its values, at any time each of its entities but at most one is as before or has its new values, and once all have succeeded the engine loaded is the one that the same requests made one after the other leave; with resources given, such an injection never fails because of the others. No call ever waits for another. But nothing is locked: of two injections into the same entity both can report success while the values of one are lost, and while an entity is being injected a loading, or an injection of any other entity that is not given resources, may fail. A loading that succeeds has the intent parsers and metadata of the directory and entity parsers read from files each as it was at some time, which may mix states that never existed together.", "quantifier": "every engine directory, number and kind of simultaneous calls, request, interleaving of their reads and writes, time, hash seed", "why_tests_cant": "the interleavings of reads and writes of several calls are unboundedly many and chosen by the scheduler", "anchors": ["src/injection/injection.rs:inject", "src/nlu_engine.rs:from_path", "src/resources/loading.rs:load_engine_shared_resources"]}
{"id": "C93", "title": "The slots of an answer are declared", "statement": "If the documents of the parsers of an engine say about the slots of an intent only what the dataset says, then every slot of a parse answer, of its alternatives and of a get_slots answer belongs to an intent and has a name that the dataset declares for this intent; without a lookup parser it also has the entity declared for this name, and extract_slot accepts this intent and this slot name for every text that the entity parsers can analyse. A lookup parser can give a slot another entity than its own: it does not distinguish two entities whose names differ only by letter case. Loading does not check that the documents agree: if they do not, parse can answer slots that the dataset does not declare and that extract_slot refuses.", "quantifier": "every engine directory, text, filter, number of alternatives, intent, slot, hash seed", "why_tests_cant": "the texts and models are unboundedly many, and the answer comes from any of several parsers with separate declarations", "anchors": ["src/nlu_engine.rs:parse_with_alternatives", "src/nlu_engine.rs:get_slots_with_alternatives", "src/nlu_engine.rs:extract_slot_with_alternatives", "src/intent_parser/lookup_intent_parser.rs:parse_map_output", "src/slot_filler/crf_slot_filler.rs:get_slots"]}
{"id": "C94", "title": "Asking for slot alternatives changes nothing else", "statement": "For an engine loaded from files, the number of slot alternatives given to parse_with_alternatives, get_slots_with_alternatives or extract_slot_with_alternatives changes only the alternatives of the slots: two calls that differ only in this number both fail with the same error, or both succeed with the same intents, the same alternative intents and the same slots with the same values, ranges, entities, names and confidences in the same order. No slot has more alternatives than were asked for, and parse, get_slots and extract_slot give none. This holds when the libraries of entities themselves give the same entities whatever the number of alternatives, and never more alternatives than asked for.", "quantifier": "every engine directory, text, filter, intent, slot, number of intent alternatives, pair of numbers of slot alternatives, hash seed", "why_tests_cant": "it compares two calls for every text and every pair of numbers", "anchors": ["src/nlu_engine.rs:parse_with_alternatives", "src/nlu_engine.rs:get_slots_with_alternatives", "src/nlu_engine.rs:extract_slot_with_alternatives", "src/slot_utils.rs:resolve_builtin_slot", "src/slot_utils.rs:resolve_custom_slot"]}
{"id": "C95", "title": "A complete engine answers every text", "statement": "Call an engine directory complete when its documents refer to nothing that is missing: every intent for which the pattern parser declares slots has patterns, every entity named by a pattern, a table or a slot filler is in the dataset or builtin, every class of the classifier has a slot filler, the coefficients have one column for each feature, and the labels of each tagger name slots of its filler. Then for every text parse and get_intents return an answer, neither an error nor a crash, with any filters that name declared intents; so does get_slots for an intent that every parser lists, parse with intent alternatives when an intent listed by one parser is listed by all, and extract_slot for a declared slot. The entity libraries and taggers are assumed to answer, to give only the entities asked for, and to meet the contracts of C68. Loading does not check completeness: an engine that lacks one slot filler loads, and then fails with an unknown intent error on some texts, without any filter.", "quantifier": "every engine directory, text, filter, intent, slot, number of alternatives, hash seed", "why_tests_cant": "the texts and models are unboundedly many, and each parser, feature and slot resolution has its own error paths", "anchors": ["src/nlu_engine.rs:parse_with_alternatives", "src/nlu_engine.rs:get_intents", "src/nlu_engine.rs:get_slots_with_alternatives", "src/nlu_engine.rs:extract_slot_with_alternatives", "src/intent_parser/probabilistic_intent_parser.rs:parse", "src/intent_parser/deterministic_intent_parser.rs:parse", "src/intent_classifier/logreg.rs:run", "src/slot_filler/crf_slot_filler.rs:get_slots", "src/slot_utils.rs:resolve_builtin_slot"]}
{"id": "C96", "title": "Filters that forbid nothing", "statement": "For a loaded engine, two calls of parse_with_alternatives on the same text whose filters name declared intents and permit the same ones among the intents that the files of the parsers mention return the same answer or the same error, main intent, slots and alternatives included. So, when the dataset of the engine lists every intent that its parsers mention, a whitelist of all intents and an empty blacklist are no filter at all. When it does not, which loading accepts, an empty blacklist can change the answer.", "quantifier": "every engine directory, text, pair of pairs of filters, numbers of alternatives, hash seed", "why_tests_cant": "it compares two calls for every text and every filter", "anchors": ["src/nlu_engine.rs:parse_with_alternatives", "src/nlu_engine.rs:get_intents_whitelist", "src/intent_parser/deterministic_intent_parser.rs:parse", "src/intent_parser/lookup_intent_parser.rs:parse", "src/intent_classifier/log_reg_intent_classifier.rs:get_intents_with_whitelist"]}
{"id": "C97", "title": "Adding a parser to an engine", "statement": "Parsers added after those of an engine do not change the answer of parse when the engine alone recognises an intent or fails: intent, confidence and slots are the same, even if the new parsers fail. When the engine alone recognises no intent, the answer is the one of the new parsers alone. The same holds for get_slots. In get_intents no intent is lost and no confidence decreases, but a failure of a new parser is a failure of the call. A parser that recognises nothing in a text can be removed without changing the answer, unless it is the last one, whose confidence in the absence of intent is reported. A parser added in front can change the answer. For an engine directory whose names are relative and without '..', adding names of parser directories at the end of the list in the main document gives, when both load, the engine loaded before followed by that many parsers.", "quantifier": "every engine, engine directory, list of new parsers, text, pair of filters, numbers of alternatives, hash seed", "why_tests_cant": "it compares two engines for every text and every list of parsers", "anchors": ["src/nlu_engine.rs:parse_with_alternatives", "src/nlu_engine.rs:get_intents", "src/nlu_engine.rs:get_slots_with_alternatives", "src/nlu_engine.rs:from_path"]}
