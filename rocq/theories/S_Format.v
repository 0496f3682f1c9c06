(** Specification vocabulary for C76: what the json documents of an engine mean. *)
From Coq Require Import String List NArith ZArith.
From Verif Require Import Base F32 M_Types M_Det M_Lookup M_Feat M_Features M_Filler M_Res M_Json M_Load M_Inject S_Load.
Import ListNotations.

(** [R j a]: the document [j] means [a]. *)
Definition meant (A : Type) := json -> A -> Prop.

(** ** Structures *)

(** A structure with the fields [names] is written as an object, where other fields may
    be present, or as an array of the values of the first fields. *)
Definition structure (names : list str) (j : json) : Prop :=
  (exists kvs, j = JObj kvs) \/ (exists l, j = JArr l /\ length l <= length names).

(** The structure gives a value to a field. *)
Definition given (names : list str) (j : json) (name : str) (v : json) : Prop :=
  field_once j name v \/
  exists l i, j = JArr l /\ nth_error names i = Some name /\ nth_error l i = Some v.
(** It is an object without this field. *)
Definition omitted (j : json) (name : str) : Prop :=
  exists kvs, j = JObj kvs /\ forall v, ~ In (name, v) kvs.
(** It is an array that ends before this field. *)
Definition cut_off (names : list str) (j : json) (name : str) : Prop :=
  exists l i, j = JArr l /\ nth_error names i = Some name /\ length l <= i.

(** A field that has to be there. *)
Definition field {A} (names : list str) (j : json) (name : str) (R : meant A) (a : A) : Prop :=
  exists v, given names j name v /\ R v a.
(** A field that may be omitted in an object, or be null. *)
Definition field_or_none {A} (names : list str) (j : json) (name : str) (R : meant A) (o : option A) : Prop :=
  (exists v a, given names j name v /\ v <> JNull /\ R v a /\ o = Some a) \/
  ((given names j name JNull \/ omitted j name) /\ o = None).
(** A field with a default value. *)
Definition field_or {A} (names : list str) (j : json) (name : str) (default : A) (R : meant A) (a : A) : Prop :=
  field names j name R a \/ ((omitted j name \/ cut_off names j name) /\ a = default).
(** A field that is checked and not used. *)
Definition field_ignored {A} (names : list str) (j : json) (name : str) (R : meant A) : Prop :=
  exists a, field names j name R a.

(** ** Values *)
Definition text : meant str := fun j s => j = JStr s.
Definition flag : meant bool := fun j b => j = JBool b.
Definition whole (lo hi : Z) : meant Z := fun j z => j = JNum z /\ (lo <= z < hi)%Z.
Definition natural (hi : Z) : meant nat := fun j n => j = JNum (Z.of_nat n) /\ (Z.of_nat n < hi)%Z.
Definition int32 : meant Z := whole (- 2 ^ 31) (2 ^ 31).
Definition anything : meant json := fun j v => v = j.
Definition or_null {A} (R : meant A) : meant (option A) := fun j o =>
  (j = JNull /\ o = None) \/ (j <> JNull /\ exists a, o = Some a /\ R j a).
Definition list_of {A} (R : meant A) : meant (list A) := fun j l =>
  exists js, j = JArr js /\ Forall2 R js l.
Definition pair_of {A B} (RA : meant A) (RB : meant B) : meant (A * B) := fun j p =>
  exists a b, j = JArr [a; b] /\ RA a (fst p) /\ RB b (snd p).

(** A map: every entry of the object can be read; of the entries of a key, the last one
    counts.  The order of [m] is not told. *)
Definition map_of {K V} (key : str -> K -> Prop) (R : meant V) : meant (list (K * V)) := fun j m =>
  exists kvs, j = JObj kvs /\ NoDup (map fst m) /\
    (forall s v, In (s, v) kvs -> (exists k, key s k) /\ exists a, R v a) /\
    (forall k a, In (k, a) m -> exists before s v after,
       kvs = before ++ (s, v) :: after /\ key s k /\ R v a /\ forall s' v', In (s', v') after -> ~ key s' k) /\
    (forall s v k, In (s, v) kvs -> key s k -> exists a, In (k, a) m).

(** Keys: a text, or a number in decimal notation with an optional sign. *)
Definition text_key (s k : str) : Prop := k = s.
Definition digits_of (s : str) (n : N) : Prop :=
  s <> [] /\ (forall c, In c s -> (48 <= c <= 57)%N) /\
  fold_left (fun acc c => acc * 10 + (c - 48))%N s 0%N = n.
Definition int32_key (s : str) (z : Z) : Prop :=
  (- 2 ^ 31 <= z < 2 ^ 31)%Z /\ exists n, digits_of (match s with 43%N :: r | 45%N :: r => r | _ => s end) n /\
    z = match s with 45%N :: _ => (- Z.of_N n)%Z | _ => Z.of_N n end.
Definition usize_key (s : str) (k : nat) : Prop :=
  (Z.of_nat k < 2 ^ 64)%Z /\ digits_of (match s with 43%N :: r => r | _ => s end) (N.of_nat k).

(** A decoder reads exactly the documents that mean something, as what they mean, and
    refuses the others with an error. *)
Definition reads_exactly {A} (d : decoder A) (R : meant A) : Prop :=
  (forall j a, d j = Ok a -> R j a) /\
  (forall j a, R j a -> exists a', d j = Ok a') /\
  (forall j, (forall a, ~ R j a) -> exists e, d j = Err e).

(** ** nlu_engine.json *)
Definition version_document : meant str := fun j v =>
  let names := [$"model_version"] in structure names j /\ field names j $"model_version" text v.
Definition entity_document : meant bool := fun j b =>
  let names := [$"automatically_extensible"] in structure names j /\ field names j $"automatically_extensible" flag b.
Definition dataset_document : meant DatasetMetadata := fun j d =>
  let names := [$"language_code"; $"entities"; $"slot_name_mappings"] in structure names j /\
  field names j $"language_code" text (ds_language d) /\
  field names j $"entities" (map_of text_key entity_document) (ds_entities d) /\
  field names j $"slot_name_mappings" (map_of text_key (map_of text_key text)) (ds_slot_name_mappings d).
Definition engine_document : meant EngineModel := fun j m =>
  let names := [$"dataset_metadata"; $"intent_parsers"; $"model_version"; $"training_package_version";
                $"builtin_entity_parser"; $"custom_entity_parser"] in structure names j /\
  field names j $"dataset_metadata" dataset_document (em_dataset m) /\
  field names j $"intent_parsers" (list_of text) (em_parsers m) /\
  field_ignored names j $"model_version" text /\
  field_ignored names j $"training_package_version" text /\
  field names j $"builtin_entity_parser" text (em_builtin m) /\
  field names j $"custom_entity_parser" text (em_custom m).

(** ** metadata.json of a processing unit: an object, or an array with nothing but the name *)
Definition unit_title (u : unit_name) : str :=
  match u with
  | UDeterministic => $"deterministic_intent_parser"
  | ULookup => $"lookup_intent_parser"
  | UProbabilistic => $"probabilistic_intent_parser"
  | UCrf => $"crf_slot_filler"
  | ULogReg => $"log_reg_intent_classifier"
  end.
Definition unit_document : meant unit_name := fun j u =>
  field_once j $"unit_name" (JStr (unit_title u)) \/ j = JArr [JStr (unit_title u)].

(** ** metadata.json of the resources and of the custom entity parser *)
Definition resources_document : meant ResourcesMetadata := fun j m =>
  let names := [$"language"; $"gazetteers"; $"word_clusters"; $"stems"; $"stop_words"] in structure names j /\
  field_ignored names j $"language" text /\
  field_or_none names j $"gazetteers" (list_of text) (rm_gazetteers m) /\
  field_or_none names j $"word_clusters" (list_of text) (rm_clusters m) /\
  field_or_none names j $"stems" text (rm_stems m) /\
  field_or_none names j $"stop_words" text (rm_stop_words m).
Definition usage_code (u : usage) : nat :=
  match u with WithStems => 0 | WithoutStems => 1 | WithAndWithoutStems => 2 end.
Definition usage_document : meant usage := fun j u => j = JNum (Z.of_nat (usage_code u)).
Definition custom_document : meant CustomMetadata := fun j m =>
  let names := [$"language"; $"parser_directory"; $"parser_usage"] in structure names j /\
  field names j $"language" text (cu_language m) /\
  field names j $"parser_directory" text (cu_directory m) /\
  field names j $"parser_usage" usage_document (cu_usage m).

(** The documents of the entity parsers that injection reads: the directory of the builtin
    gazetteers, if there are any, and the entities of a gazetteer parser with their directories. *)
Definition builtin_document : meant (option str) := fun j m =>
  let names := [$"language"; $"gazetteer_parser"] in structure names j /\
  field_ignored names j $"language" text /\
  field_or_none names j $"gazetteer_parser" text m.
Definition entity_parser_document : meant (str * str) := fun j m =>
  let names := [$"entity_identifier"; $"entity_parser"] in structure names j /\
  field names j $"entity_identifier" text (fst m) /\
  field names j $"entity_parser" text (snd m).
Definition gazetteers_document : meant (list (str * str)) := fun j m =>
  let names := [$"parsers_metadata"] in structure names j /\
  field names j $"parsers_metadata" (list_of entity_parser_document) m.

(** ** intent_parser.json *)
Definition config_document : meant bool := fun j b =>
  let names := [$"ignore_stop_words"] in structure names j /\ field_or names j $"ignore_stop_words" false flag b.
Definition deterministic_document : meant DetModel := fun j m =>
  let names := [$"language_code"; $"patterns"; $"group_names_to_slot_names"; $"slot_names_to_entities";
                $"stop_words_whitelist"; $"config"] in structure names j /\
  field names j $"language_code" text (dm_language m) /\
  field names j $"patterns" (map_of text_key (list_of text)) (dm_patterns m) /\
  field names j $"group_names_to_slot_names" (map_of text_key text) (dm_groups m) /\
  field names j $"slot_names_to_entities" (map_of text_key (map_of text_key text)) (dm_slots m) /\
  field_or names j $"stop_words_whitelist" [] (map_of text_key (list_of text)) (dm_stop_whitelist m) /\
  field names j $"config" config_document (dm_ignore_stop_words m).
Definition scope_document : meant EntityScope := fun j m =>
  let names := [$"builtin"; $"custom"] in structure names j /\
  field names j $"builtin" (list_of text) (es_builtin m) /\ field names j $"custom" (list_of text) (es_custom m).
Definition grouped_scope_document : meant GroupedScope := fun j m =>
  let names := [$"intent_group"; $"entity_scope"] in structure names j /\
  field names j $"intent_group" (list_of text) (gs_intents m) /\ field names j $"entity_scope" scope_document (gs_scope m).
Definition lookup_document : meant LookupModel := fun j m =>
  let names := [$"language_code"; $"slots_names"; $"intents_names"; $"map"; $"entity_scopes";
                $"stop_words_whitelist"; $"config"] in structure names j /\
  field names j $"language_code" text (lm_language m) /\
  field names j $"slots_names" (list_of text) (lm_slots_names m) /\
  field names j $"intents_names" (list_of text) (lm_intents_names m) /\
  field names j $"map" (map_of int32_key (pair_of int32 (list_of int32))) (lm_map m) /\
  field names j $"entity_scopes" (list_of grouped_scope_document) (lm_scopes m) /\
  field names j $"stop_words_whitelist" (map_of text_key (list_of text)) (lm_stop_whitelist m) /\
  field names j $"config" config_document (lm_ignore_stop_words m).
Definition filler_entry_document : meant (str * str) := fun j p =>
  let names := [$"intent"; $"slot_filler_name"] in structure names j /\
  field names j $"intent" text (fst p) /\ field names j $"slot_filler_name" text (snd p).
Definition probabilistic_document : meant (list (str * str)) := fun j l =>
  let names := [$"slot_fillers"] in structure names j /\
  field names j $"slot_fillers" (list_of filler_entry_document) l.

(** ** The intent classifier.  [number j v]: the json number [j] read as a 32-bit float. *)
Section Numbers.
  Context (f32_of : json -> option f32).
  Definition number : meant f32 := fun j v => f32_of j = Some v.
  Definition classifier_document : meant ClassifierModel := fun j m =>
    let names := [$"featurizer"; $"intercept"; $"coeffs"; $"intent_list"] in structure names j /\
    field_or_none names j $"featurizer" text (clm_featurizer m) /\
    field_or_none names j $"intercept" (list_of number) (clm_intercept m) /\
    field_or_none names j $"coeffs" (list_of (list_of number)) (clm_coeffs m) /\
    field names j $"intent_list" (list_of (or_null text)) (clm_intents m).
  Definition sklearn_document : meant (list f32 * list (str * nat)) := fun j p =>
    let names := [$"idf_diag"; $"vocab"] in structure names j /\
    field names j $"idf_diag" (list_of number) (fst p) /\
    field names j $"vocab" (map_of text_key (natural (2 ^ 64))) (snd p).
  Definition tfidf_config_document : meant (bool * option str) := fun j p =>
    let names := [$"use_stemming"; $"word_clusters_name"] in structure names j /\
    field names j $"use_stemming" flag (fst p) /\ field_or_none names j $"word_clusters_name" text (snd p).
  Definition tfidf_document : meant TfidfModel := fun j m =>
    let names := [$"language_code"; $"builtin_entity_scope"; $"vectorizer"; $"config"] in structure names j /\
    field names j $"language_code" text (tm_language m) /\
    field names j $"builtin_entity_scope" (list_of text) (tm_scope m) /\
    field names j $"vectorizer" sklearn_document (tm_idf m, tm_vocab m) /\
    field names j $"config" tfidf_config_document (tm_stemming m, tm_clusters m).
End Numbers.
Definition featurizer_document : meant (str * option str) := fun j p =>
  let names := [$"language_code"; $"tfidf_vectorizer"; $"cooccurrence_vectorizer"] in structure names j /\
  field_ignored names j $"language_code" text /\
  field names j $"tfidf_vectorizer" text (fst p) /\
  field_or_none names j $"cooccurrence_vectorizer" text (snd p).
Definition cooc_config_document : meant (option nat * bool * bool * option str) := fun j p =>
  let names := [$"window_size"; $"filter_stop_words"; $"keep_order"; $"unknown_words_replacement_string"] in
  structure names j /\
  field_or_none names j $"window_size" (natural (2 ^ 64)) (fst (fst (fst p))) /\
  field names j $"filter_stop_words" flag (snd (fst (fst p))) /\
  field names j $"keep_order" flag (snd (fst p)) /\
  field_or_none names j $"unknown_words_replacement_string" text (snd p).
Definition cooccurrence_document : meant CoocModel := fun j m =>
  let names := [$"language_code"; $"builtin_entity_scope"; $"word_pairs"; $"config"] in structure names j /\
  field names j $"language_code" text (cm_language m) /\
  field names j $"builtin_entity_scope" (list_of text) (cm_scope m) /\
  field names j $"word_pairs" (map_of usize_key (pair_of text text)) (cm_pairs m) /\
  field names j $"config" cooc_config_document (cm_window m, cm_filter_stop m, cm_keep_order m, cm_unknown m).

(** ** slot_filler.json *)
Definition factory_document : meant FeatureFactory := fun j f =>
  let names := [$"factory_name"; $"offsets"; $"args"] in structure names j /\
  field names j $"factory_name" text (ff_name f) /\
  field names j $"offsets" (list_of int32) (ff_offsets f) /\
  field names j $"args" (map_of text_key anything) (ff_args f).
Definition filler_config_document : meant (nat * list FeatureFactory) := fun j p =>
  let names := [$"tagging_scheme"; $"feature_factory_configs"] in structure names j /\
  field names j $"tagging_scheme" (natural 256) (fst p) /\
  field names j $"feature_factory_configs" (list_of factory_document) (snd p).
Definition filler_document : meant SlotFillerModel := fun j m =>
  let names := [$"language_code"; $"intent"; $"slot_name_mapping"; $"crf_model_file"; $"config"] in
  structure names j /\
  field names j $"language_code" text (sm_language m) /\
  field_ignored names j $"intent" text /\
  field names j $"slot_name_mapping" (map_of text_key text) (sm_mapping m) /\
  field_or_none names j $"crf_model_file" text (sm_crf_file m) /\
  field names j $"config" filler_config_document (sm_scheme m, sm_factories m).
