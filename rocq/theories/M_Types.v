(** Data types shared by the model, and the external functions it is
    parameterised by. *)
From Coq Require Import List NArith ZArith Bool.
From Verif Require Import Base Sorting F32.
Import ListNotations.

(** [snips_nlu_ontology::Language] (external crate). *)
Inductive lang := DE | EN | ES | FR | IT | JA | KO | PT.

(** A [BuiltinEntityKind] (external enum) is represented by its identifier, e.g.
    "snips/number". *)
Definition kind := str.

(** [snips_nlu_utils::token::Token] (external crate). *)
Record token := mkTok { tk_value : str; tk_range : range; tk_char_range : range }.

(** External functions, not in /repo.  Theorems quantify over them; contracts are
    explicit hypotheses. *)
Record Ext := mkExt {
  x_tokenize : lang -> str -> list token;        (* snips_nlu_utils::token::tokenize *)
  x_tokenize_light : lang -> str -> list str;    (* snips_nlu_utils::token::tokenize_light *)
  x_normalize : str -> str;                      (* snips_nlu_utils::string::normalize *)
  x_lower : str -> str;                          (* str::to_lowercase *)
  x_upper : str -> str;                          (* str::to_uppercase *)
  x_hash : str -> Z;                             (* snips_nlu_utils::string::hash_str_to_i32 *)
  x_kind_of_identifier : str -> option kind;     (* BuiltinEntityKind::from_identifier *)
  x_kind_from_str : str -> option kind           (* BuiltinEntityKind::from_str *)
}.

(** [snips_nlu_ontology::SlotValue]: custom values are strings; the many builtin
    shapes are opaque.  [snips_nlu_ontology::SlotValue] (external);
    src/slot_utils.rs:89-120 makes them. *)
Inductive slot_value := SVCustom (s : str) | SVBuiltin (opaque : str).

(** [snips_nlu_ontology::BuiltinEntity].  External; src/slot_utils.rs:110 uses it. *)
Record BuiltinEntity := mkBE {
  be_value : str; be_range : range; be_entity : slot_value;
  be_alternatives : list slot_value; be_kind : kind }.

(** [CustomEntity = GazetteerEntityMatch<String>],
    src/entity_parser/custom_entity_parser.rs:22 *)
Record CustomEntity := mkCE {
  ce_value : str; ce_resolved : str; ce_alternatives : list str;
  ce_range : range; ce_entity : str }.

(** [snips_nlu_ontology::IntentClassifierResult].  External;
    src/intent_parser/mod.rs:26-50 makes it. *)
Record IntentResult := mkIR { ir_name : option str; ir_score : f32 }.

(** src/slot_utils.rs:11-17 *)
Record InternalSlot := mkIS {
  is_value : str; is_range : range; is_entity : str; is_slot_name : str }.

(** src/intent_parser/mod.rs:20-24 *)
Record InternalParsingResult := mkIPR { pr_intent : IntentResult; pr_slots : list InternalSlot }.

(** [snips_nlu_ontology::Slot].  External; src/slot_utils.rs:89-120 makes it. *)
Record Slot := mkSlot {
  sl_raw_value : str; sl_value : slot_value; sl_alternatives : list slot_value;
  sl_range : range; sl_entity : str; sl_slot_name : str; sl_confidence : option f32 }.

(** The trait [BuiltinEntityParser], src/entity_parser/builtin_entity_parser.rs:11-19:
    sentence, kinds filter, use_cache, max alternatives. *)
Definition BuiltinParser := str -> option (list kind) -> bool -> nat -> outcome (list BuiltinEntity).

(** The trait [CustomEntityParser], src/entity_parser/custom_entity_parser.rs:24-31. *)
Definition CustomParser := str -> option (list str) -> nat -> outcome (list CustomEntity).

(** src/resources/mod.rs:14-21, [SharedResources]. The caches inside the two entity
    parsers are transparent (see P_Cache), so the parsers are functions here. *)
Record Resources := mkRes {
  rs_builtin : BuiltinParser;
  rs_custom : CustomParser;
  rs_gazetteers : list (str * (str -> bool));
  rs_stemmer : option (str -> str);
  rs_clusterers : list (str * (str -> option str));
  rs_stop_words : list str
}.

(** The trait [IntentParser], src/intent_parser/mod.rs:52-62. *)
Record IntentParser := mkIP {
  ip_parse : str -> option (list str) -> outcome InternalParsingResult;
  ip_get_intents : str -> outcome (list IntentResult);
  ip_get_slots : str -> str -> outcome (list InternalSlot)
}.

(** src/utils.rs:110-126, the two [Into<MatchedEntity>] conversions are in M_Det. *)

(** src/models/nlu_engine.rs:22-32: entities map to [automatically_extensible]. *)
Record DatasetMetadata := mkDS {
  ds_language : str;
  ds_entities : list (str * bool);
  ds_slot_name_mappings : list (str * list (str * str))
}.

(** src/nlu_engine.rs:27-31 *)
Record Engine := mkEngine {
  en_dataset : DatasetMetadata;
  en_parsers : list IntentParser;
  en_resources : Resources
}.

(** [snips_nlu_ontology] / src/ontology: results of [parse].  External;
    src/nlu_engine.rs:147-234 makes it. *)
Record Alternative := mkAlt { al_intent : IntentResult; al_slots : list Slot }.
(** External; src/nlu_engine.rs:147-234 makes it. *)
Record ParseResult := mkPR {
  ps_input : str; ps_intent : IntentResult; ps_slots : list Slot;
  ps_alternatives : list Alternative }.
