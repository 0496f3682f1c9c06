(** Properties of the json documents of an engine: C76.  [Print Assumptions] beneath each
    theorem lists what it rests on. *)
From Coq Require Import String List NArith ZArith.
From Verif Require Import Base F32 M_Types M_Det M_Lookup M_Feat M_Features M_Filler M_Res M_Json M_Load M_Inject S_Load
  S_Format P_Base P_Format Demo Demo_Load Demo_Home Demo_Format.
Import ListNotations.
Local Open Scope string_scope.
Local Open Scope list_scope.
Local Open Scope nat_scope.

(** ** C76: whatever order the maps get, every document is read exactly as what it means. *)

Theorem C76_version : reads_exactly d_model_version version_document.
Proof. exact (sound_exact _ _ version_sound). Qed.
Print Assumptions C76_version.

Theorem C76_engine : forall o, reads_exactly (d_engine o) engine_document.
Proof. exact (fun o => sound_exact _ _ (engine_sound o)). Qed.
Print Assumptions C76_engine.

Theorem C76_unit : reads_exactly d_unit unit_document.
Proof. exact (sound_exact _ _ unit_sound). Qed.
Print Assumptions C76_unit.

Theorem C76_resources : reads_exactly d_resources resources_document.
Proof. exact (sound_exact _ _ resources_sound). Qed.
Print Assumptions C76_resources.

Theorem C76_custom_parser : reads_exactly d_custom_metadata custom_document.
Proof. exact (sound_exact _ _ custom_sound). Qed.
Print Assumptions C76_custom_parser.

(** The documents of the entity parsers, as injection reads them. *)
Theorem C76_builtin_parser : reads_exactly d_builtin_metadata builtin_document.
Proof. exact (sound_exact _ _ builtin_sound). Qed.
Print Assumptions C76_builtin_parser.

Theorem C76_gazetteers : reads_exactly d_gazetteer_metadata gazetteers_document.
Proof. exact (sound_exact _ _ gazetteers_sound). Qed.
Print Assumptions C76_gazetteers.

Theorem C76_deterministic : forall o, reads_exactly (d_deterministic o) deterministic_document.
Proof. exact (fun o => sound_exact _ _ (deterministic_sound o)). Qed.
Print Assumptions C76_deterministic.

Theorem C76_lookup : forall o, reads_exactly (d_lookup o) lookup_document.
Proof. exact (fun o => sound_exact _ _ (lookup_sound o)). Qed.
Print Assumptions C76_lookup.

Theorem C76_probabilistic : reads_exactly d_probabilistic probabilistic_document.
Proof. exact (sound_exact _ _ probabilistic_sound). Qed.
Print Assumptions C76_probabilistic.

Theorem C76_classifier : forall f32_of, reads_exactly (d_classifier f32_of) (classifier_document f32_of).
Proof. exact (fun f => sound_exact _ _ (classifier_sound f)). Qed.
Print Assumptions C76_classifier.

Theorem C76_featurizer : reads_exactly d_featurizer featurizer_document.
Proof. exact (sound_exact _ _ featurizer_sound). Qed.
Print Assumptions C76_featurizer.

Theorem C76_tfidf : forall f32_of o, reads_exactly (d_tfidf f32_of o) (tfidf_document f32_of).
Proof. exact (fun f o => sound_exact _ _ (tfidf_sound f o)). Qed.
Print Assumptions C76_tfidf.

Theorem C76_cooccurrence : forall o, reads_exactly (d_cooccurrence o) cooccurrence_document.
Proof. exact (fun o => sound_exact _ _ (cooccurrence_sound o)). Qed.
Print Assumptions C76_cooccurrence.

Theorem C76_slot_filler : forall o, reads_exactly (d_filler o) filler_document.
Proof. exact (fun o => sound_exact _ _ (filler_sound o)). Qed.
Print Assumptions C76_slot_filler.

(** False: an object that gives two values to a key of a map is refused.  The last value
    is kept, without a word. *)
Theorem C76_duplicate_keys_refused_refuted :
  ~ (forall o kvs e r, In ($"entities", JObj e) kvs -> ~ NoDup (map fst e) -> d_dataset o (JObj kvs) <> Ok r).
Proof. exact duplicates_accepted. Qed.
Print Assumptions C76_duplicate_keys_refused_refuted.

(** The model file of the demo engine means what it says; it is refused when its list of
    parsers is missing, given twice, or holds a number.  An array of the values is read as well. *)
Example C76_case :
  (exists m, engine_document home_engine_document m /\ em_parsers m = [$"rules"; $"table"; $"stats"] /\
     em_custom m = $"custom") /\
  (exists m, engine_document (JArr [some_dataset; arr ["p"]; txt "0.20.0"; txt ""; txt "b"; txt "c"]) m /\
     em_parsers m = [$"p"] /\ em_builtin m = $"b") /\
  (forall m, ~ engine_document (obj [("dataset_metadata", some_dataset); ("model_version", txt "0.20.0");
     ("training_package_version", txt ""); ("builtin_entity_parser", txt "b"); ("custom_entity_parser", txt "c")]) m) /\
  (forall m, ~ engine_document (obj [("dataset_metadata", some_dataset); ("intent_parsers", arr []); ("intent_parsers", arr []);
     ("model_version", txt "0.20.0"); ("training_package_version", txt "");
     ("builtin_entity_parser", txt "b"); ("custom_entity_parser", txt "c")]) m) /\
  (forall m, ~ engine_document (obj [("dataset_metadata", some_dataset); ("intent_parsers", JArr [JNum 1]);
     ("model_version", txt "0.20.0"); ("training_package_version", txt "");
     ("builtin_entity_parser", txt "b"); ("custom_entity_parser", txt "c")]) m).
Proof. exact documents_case. Qed.

Example C76_case_other :
  unit_document (JArr [txt "crf_slot_filler"]) UCrf /\
  builtin_document (obj [("language", txt "en"); ("gazetteer_parser", JNull)]) None /\
  builtin_document (obj [("language", txt "en"); ("gazetteer_parser", txt "gazetteers")]) (Some $"gazetteers") /\
  gazetteers_document (obj [("parsers_metadata", JArr [obj [("entity_identifier", txt "room"); ("entity_parser", txt "parser_1")]])])
    [($"room", $"parser_1")].
Proof.
  split; [right; reflexivity|].
  split; [|split]; [apply (proj1 C76_builtin_parser)|apply (proj1 C76_builtin_parser)|apply (proj1 C76_gazetteers)]; reflexivity.
Qed.
