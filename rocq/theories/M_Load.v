(** Model of loading an engine from a directory: src/nlu_engine.rs:33-104,
    src/resources/loading.rs and the [from_path] functions of the processing units. *)
From Coq Require Import String List NArith ZArith Bool Arith.
From Verif Require Import Base F32 M_Types M_Engine M_Det M_Lookup M_Feat M_Prob M_Features M_Filler
                          M_Cache M_Res M_Fs M_Json.
Import ListNotations.
Local Open Scope nat_scope.

(** External functions used while loading. *)
Record Loader := mkLoader {
  ld_json : str -> option json;                                (* serde_json, the syntax *)
  ld_f32 : json -> option f32;                                 (* serde_json, numbers *)
  ld_lang : str -> option lang;                                (* Language::from_str *)
  ld_lang_name : lang -> str;                                  (* Language::to_string *)
  ld_regex : str -> outcome Regex;                             (* RegexBuilder::build *)
  ld_builtin : fs -> path ->
    outcome (str -> option (list kind) -> nat -> outcome (list BuiltinEntity)); (* BuiltinEntityParser::from_path *)
  ld_gazetteer : fs -> path ->
    outcome (str -> option (list str) -> nat -> outcome (list CustomEntity));  (* GazetteerParser::from_path *)
  ld_tagger : fs -> path -> outcome Tagger                     (* crfsuite::Tagger::create_from_file *)
}.

(** src/lib.rs:22 *)
Definition MODEL_VERSION : str := $"0.20.0".

Section Loading.
  Context (x : Ext) (shape : str -> str) (ngrams : list str -> nat -> list str) (mx : Math) (L : Loader).
  (** Iteration orders: of the maps of a file, and of the maps built by a unit. *)
  Context (file_orders : path -> orders) (unit_orders : path -> nat -> HashOrder).

  (** [File::open] then [serde_json::from_reader]; wrong contents are errors.
      src/nlu_engine.rs:55-78 and the other [from_path] functions. *)
  Definition read_json {A} (f : fs) (p : path) (d : decoder A) : outcome A :=
    let* c := read_file f p in
    let* j := ok_or EIo (ld_json L c) in
    d j.

  (** src/nlu_engine.rs:55-66 *)
  Definition check_model_version (f : fs) (p : path) : outcome unit :=
    let* v := read_json f p d_model_version in
    if str_eqb v MODEL_VERSION then Ok tt else Err (EWrongModelVersion v MODEL_VERSION).

  (** src/nlu_engine.rs:68-78; the contexts added to errors are not modelled. *)
  Definition load_model (f : fs) (p : path) : outcome EngineModel :=
    let file := pjoin p $"nlu_engine.json" in
    let* _ := check_model_version f file in
    read_json f file (d_engine (file_orders file)).

  (** ** src/resources/loading.rs *)

  (** loading.rs:79-96 *)
  Definition load_stemmer (f : fs) (dir : path) (m : ResourcesMetadata) : outcome (option (str -> str)) :=
    match rm_stems m with
    | Some name =>
        let* c := read_file f (with_extension (pjoin (pjoin dir $"stemming") name) $"txt") in
        let* s := stemmer_from_reader (x_hash x) c in
        Ok (Some (stem x s))
    | None => Ok None
    end.

  (** loading.rs:98-122 and 124-149: named files, inserted one after the other. *)
  Definition load_named {A} (read : path -> str -> outcome A) (f : fs) (dir : path) (names : option (list str))
      : outcome (list (str * A)) :=
    match names with
    | Some l =>
        fold_left (fun acc name =>
                     let* m := acc in
                     let file := with_extension (pjoin dir name) $"txt" in
                     let* c := read_file f file in
                     let* a := read file c in
                     Ok (hinsert str_eqb name a m)) l (Ok [])
    | None => Ok []
    end.
  (** loading.rs:98-122 *)
  Definition load_gazetteers (f : fs) (dir : path) (m : ResourcesMetadata)
      : outcome (list (str * (str -> bool))) :=
    load_named (fun _ c => Ok (gazetteer_contains (x_hash x) (gazetteer_from_reader (x_hash x) c)))
               f (pjoin dir $"gazetteers") (rm_gazetteers m).
  (** loading.rs:124-149 *)
  Definition load_clusterers (f : fs) (dir : path) (m : ResourcesMetadata)
      : outcome (list (str * (str -> option str))) :=
    load_named (fun file c => let* cl := clusters_from_reader (unit_orders file 0) (x_hash x) c in
                              Ok (get_cluster (x_hash x) cl))
               f (pjoin dir $"word_clusters") (rm_clusters m).

  (** loading.rs:151-176 *)
  Definition load_stop_words (f : fs) (dir : path) (m : ResourcesMetadata) : outcome (list str) :=
    match rm_stop_words m with
    | Some name =>
        let* c := read_file f (with_extension (pjoin dir name) $"txt") in
        Ok (stop_words_from_reader c)
    | None => Ok []
    end.

  (** custom_entity_parser.rs:163-184.  The cache is transparent (see P_Cache): the parser
      is the function it caches, applied to the lowercased text. *)
  Definition load_custom (f : fs) (p : path) : outcome CustomParser :=
    let* m := read_json f (pjoin p $"metadata.json") d_custom_metadata in
    let* l := ok_or EOther (ld_lang L (cu_language m)) in
    let* gaz := ld_gazetteer L f (pjoin p (cu_directory m)) in
    Ok (fun s kinds alts => custom_extract x l gaz (x_lower x s) kinds alts).

  (** builtin_entity_parser.rs:69-75, and 34-68 with the transparent cache *)
  Definition load_builtin (f : fs) (p : path) : outcome BuiltinParser :=
    let* b := ld_builtin L f p in
    Ok (fun s kinds _ alts => b (x_lower x s) kinds alts).

  (** loading.rs:30-61.  [unit_orders dir 0..2]: iteration orders of the resource maps. *)
  Definition load_shared_resources (f : fs) (dir builtin custom : path) : outcome Resources :=
    let* m := read_json f (pjoin dir $"metadata.json") d_resources in
    let* st := load_stemmer f dir m in
    let* gs := load_gazetteers f dir m in
    let* cs := load_clusterers f dir m in
    let* sw := load_stop_words f dir m in
    let* b := load_builtin f builtin in
    let* c := load_custom f custom in
    Ok (mkRes b c (reorder (unit_orders dir 0) gs) st (reorder (unit_orders dir 1) cs)
              (reorder (unit_orders dir 2) sw)).

  (** nlu_engine.rs:36-44 and loading.rs:69-75: the directories of the resources. *)
  Definition resources_of (f : fs) (p : path) (m : EngineModel) : outcome Resources :=
    let* l := ok_or EOther (ld_lang L (ds_language (em_dataset m))) in
    load_shared_resources f (pjoin (pjoin p $"resources") (ld_lang_name L l))
                          (pjoin p (em_builtin m)) (pjoin p (em_custom m)).

  (** loading.rs:63-77: no version is checked. *)
  Definition load_engine_shared_resources (f : fs) (p : path) : outcome Resources :=
    let file := pjoin p $"nlu_engine.json" in
    let* m := read_json f file (d_engine (file_orders file)) in
    resources_of f p m.

  (** ** Intent parsers *)

  (** featurizer.rs:101-115, 256-270 *)
  Definition load_tfidf (f : fs) (p : path) (res : Resources) : outcome Tfidf :=
    let file := pjoin p $"vectorizer.json" in
    let* m := read_json f file (d_tfidf (ld_f32 L) (file_orders file)) in
    tfidf_new x (ld_lang L) m res.
  (** featurizer.rs:256-270 *)
  Definition load_cooc (f : fs) (p : path) (res : Resources) : outcome Cooc :=
    let file := pjoin p $"vectorizer.json" in
    let* m := read_json f file (d_cooccurrence (file_orders file)) in
    cooc_new x (ld_lang L) m res.

  (** featurizer.rs:32-65 *)
  Definition load_featurizer (f : fs) (p : path) (res : Resources) : outcome Featurizer :=
    let* m := read_json f (pjoin p $"featurizer.json") d_featurizer in
    let* t := load_tfidf f (pjoin p (fst m)) res in
    let* c := match snd m with
              | Some name => let* c := load_cooc f (pjoin p name) res in Ok (Some c)
              | None => Ok None
              end in
    Ok (mkFz t c).

  (** log_reg_intent_classifier.rs:28-72 *)
  Definition load_classifier (f : fs) (p : path) (res : Resources) : outcome Classifier :=
    let* m := read_json f (pjoin p $"intent_classifier.json") (d_classifier (ld_f32 L)) in
    let* fz := match clm_featurizer m with
               | Some name =>
                   let* fz := load_featurizer f (pjoin p name) res in
                   Ok (Some (featurize x ngrams (unit_orders p 0) (unit_orders p 1) fz))
               | None => Ok None
               end in
    let* lr := match clm_intercept m, clm_coeffs m with
               | Some i, Some c => let* lr := logreg_new i c in Ok (Some lr)
               | _, _ => Ok None
               end in
    Ok (mkCl (clm_intents m) fz lr).

  (** src/intent_classifier/mod.rs:28-47 *)
  Definition build_intent_classifier (f : fs) (p : path) (res : Resources) : outcome IntentClassifier :=
    let* u := read_json f (pjoin p $"metadata.json") d_unit in
    match u with
    | ULogReg => let* c := load_classifier f p res in Ok (logreg_classifier mx c)
    | _ => Err EOther
    end.

  (** crf_slot_filler.rs:34-76 *)
  Definition load_crf (f : fs) (p : path) (res : Resources) : outcome CrfFiller :=
    let file := pjoin p $"slot_filler.json" in
    let* m := read_json f file (d_filler (file_orders file)) in
    crf_new x shape (ld_lang L) (fun name => ld_tagger L f (pjoin p name)) m res.

  (** src/slot_filler/mod.rs:30-49.  The engine only calls [get_slots], which does not
      poison the mutex of the tagger unless the tagger itself panics. *)
  Definition build_slot_filler (f : fs) (p : path) (res : Resources)
      : outcome (str -> outcome (list InternalSlot)) :=
    let* u := read_json f (pjoin p $"metadata.json") d_unit in
    match u with
    | UCrf => let* c := load_crf f p res in Ok (crf_get_slots x c false)
    | _ => Err EOther
    end.

  (** probabilistic_intent_parser.rs:25-57 *)
  Definition load_probabilistic (f : fs) (p : path) (res : Resources) : outcome ProbParser :=
    let* m := read_json f (pjoin p $"intent_parser.json") d_probabilistic in
    let* c := build_intent_classifier f (pjoin p $"intent_classifier") res in
    let* fillers := mapM (fun md => let* sf := build_slot_filler f (pjoin p (snd md)) res in
                                    Ok (fst md, sf)) m in
    Ok (prob_new (unit_orders p 0) c fillers).

  (** deterministic_intent_parser.rs:42-63 *)
  Definition load_deterministic (f : fs) (p : path) (res : Resources) : outcome DetParser :=
    let file := pjoin p $"intent_parser.json" in
    let* m := read_json f file (d_deterministic (file_orders file)) in
    det_new x (ld_lang L) (ld_regex L) (unit_orders p 0) (unit_orders p 1) (unit_orders p 2) m res.

  (** lookup_intent_parser.rs:43-57 *)
  Definition load_lookup (f : fs) (p : path) (res : Resources) : outcome LookupParser :=
    let file := pjoin p $"intent_parser.json" in
    let* m := read_json f file (d_lookup (file_orders file)) in
    lookup_new (ld_lang L) (unit_orders p 0) m res.

  (** src/intent_parser/mod.rs:64-81.  [unit_orders p 3]: order of the tables built by the
      calls of a rule based parser. *)
  Definition build_intent_parser (f : fs) (p : path) (u : unit_name) (res : Resources) : outcome IntentParser :=
    match u with
    | ULookup => let* lp := load_lookup f p res in Ok (lookup_intent_parser x (unit_orders p 3) lp)
    | UDeterministic => let* dp := load_deterministic f p res in Ok (det_intent_parser x (unit_orders p 3) dp)
    | UProbabilistic => let* pp := load_probabilistic f p res in Ok (prob_intent_parser pp)
    | _ => Err EOther
    end.

  (** nlu_engine.rs:80-104 *)
  Definition load_intent_parsers (f : fs) (p : path) (m : EngineModel) (res : Resources)
      : outcome (list IntentParser) :=
    mapM (fun name =>
            let dir := pjoin p name in
            let* u := read_json f (pjoin dir $"metadata.json") d_unit in
            build_intent_parser f dir u res) (em_parsers m).

  (** nlu_engine.rs:34-53 *)
  Definition from_path (f : fs) (p : path) : outcome Engine :=
    let* m := load_model f p in
    let* res := resources_of f p m in
    let* parsers := load_intent_parsers f p m res in
    Ok (mkEngine (em_dataset m) parsers res).
End Loading.
