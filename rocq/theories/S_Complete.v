(** Specification vocabulary for C95: engines whose documents refer to nothing that is missing,
    and external code that answers. *)
From Coq Require Import String List NArith ZArith.
From Verif Require Import Base F32 M_Types M_Engine M_Det M_Lookup M_Feat M_Prob M_Crf M_Features M_Filler M_Cache M_Res M_Fs M_Json M_Load
  M_Inject S_Base S_Utils S_Det S_Rules S_Feat S_Load S_Match S_Inject S_Made S_Narrow S_Intents.
Import ListNotations.
Local Open Scope nat_scope.

(** ** External code *)
(** The entity parsers and the taggers return no error. *)
Definition libraries_answer (L : Loader) (f : fs) : Prop :=
  (forall p b, ld_builtin L f p = Ok b -> forall s kinds n e, b s kinds n <> Err e) /\
  (forall p g, ld_gazetteer L f p = Ok g -> forall s names n e, g s names n <> Err e) /\
  (forall p t, ld_tagger L f p = Ok t -> forall fs e, tg_tag t fs <> Err e).

(** The entity parsers only find the entities that are asked for. *)
Definition finds_what_is_asked (L : Loader) (f : fs) : Prop :=
  (forall p b, ld_builtin L f p = Ok b -> forall s kinds n es e, b s (Some kinds) n = Ok es -> In e es -> In (be_kind e) kinds) /\
  (forall p g, ld_gazetteer L f p = Ok g -> forall s names n es e, g s (Some names) n = Ok es -> In e es -> In (ce_entity e) names).

(** A builtin entity that has a name is found under this name. *)
Definition builtin_names (x : Ext) : Prop :=
  forall name k, x_kind_of_identifier x name = Some k -> x_kind_of_identifier x k = Some k.

(** ** Documents *)
(** An entity of the dataset, or a builtin one. *)
Definition builtin_entity (x : Ext) (e : str) : Prop := exists k, x_kind_of_identifier x e = Some k.
Definition known_entity (x : Ext) (d : DatasetMetadata) (e : str) : Prop :=
  In e (map fst (ds_entities d)) \/ builtin_entity x e.

(** Each intent with slots has patterns, and the entities of its slots are known. *)
Definition patterns_complete (x : Ext) (d : DatasetMetadata) (m : DetModel) : Prop :=
  forall i decls, In (i, decls) (dm_slots m) ->
    In i (map fst (dm_patterns m)) /\ forall slot e, In (slot, e) decls -> known_entity x d e.

(** The entities that a lookup table looks for are known. *)
Definition table_complete (x : Ext) (d : DatasetMetadata) (m : LookupModel) : Prop :=
  forall g, In g (lm_scopes m) ->
    (forall e, In e (es_builtin (gs_scope g)) -> builtin_entity x e) /\
    (forall e, In e (es_custom (gs_scope g)) -> known_entity x d e).

(** A label of a tagger stands for no slot, or for a slot that the filler declares: a prefix of
    two characters and the name of the slot. *)
Definition label_declared (sm : SlotFillerModel) (label : str) : Prop :=
  exists tag, decode_tag label = Ok tag /\
    (tag = $"O" \/ exists c c' slot, tag = c :: c' :: slot /\ In slot (map fst (sm_mapping sm))).
(** The entities of the slots of a filler are known, and its tagger gives labels of these slots. *)
Definition filler_complete (x : Ext) (L : Loader) (f : fs) (d : DatasetMetadata) (dir : path) (sm : SlotFillerModel) : Prop :=
  (forall slot e, In (slot, e) (sm_mapping sm) -> known_entity x d e) /\
  forall file t fs labels l, sm_crf_file sm = Some file -> ld_tagger L f (pjoin dir file) = Ok t ->
    tg_tag t fs = Ok labels -> In l labels -> label_declared sm l.

(** Each class has a slot filler. *)
Definition classes_filled (cm : ClassifierModel) (entries : list (str * str)) : Prop :=
  forall i, In (Some i) (clm_intents cm) -> In i (map fst entries).

(** The table of coefficients has one column for each feature: the words up to the largest
    position, and the pairs of words. *)
Definition regression_fits (L : Loader) (fo : path -> orders) (f : fs) (dir : path) (cm : ClassifierModel) : Prop :=
  forall name tfidf cooc tm n coeffs row, clm_featurizer cm = Some name -> clm_coeffs cm = Some coeffs -> In row coeffs ->
    file_says L fo f (pjoin dir name) $"featurizer.json" (fun _ => d_featurizer) (tfidf, cooc) ->
    file_says L fo f (pjoin (pjoin dir name) tfidf) $"vectorizer.json" (d_tfidf (ld_f32 L)) tm ->
    largest_index (tm_vocab tm) n ->
    match cooc with
    | None => length row = n + 1
    | Some pairs => forall pm, file_says L fo f (pjoin (pjoin dir name) pairs) $"vectorizer.json" d_cooccurrence pm ->
                               length row = n + 1 + length (cm_pairs pm)
    end.

(** The probabilistic parser in the directory [p] has these slot fillers, by intent. *)
Definition fillers_at (L : Loader) (fo : path -> orders) (f : fs) (p : path) (entries : list (str * str)) : Prop :=
  unit_at L fo f p UProbabilistic /\ file_says L fo f p $"intent_parser.json" (fun _ => d_probabilistic) entries.

Definition parser_complete (x : Ext) (L : Loader) (fo : path -> orders) (f : fs) (d : DatasetMetadata) (p : path) : Prop :=
  (forall dm, rules_at L fo f p (Patterns dm) -> patterns_complete x d dm) /\
  (forall lm, rules_at L fo f p (Table lm) -> table_complete x d lm) /\
  (forall entries, fillers_at L fo f p entries ->
     (forall i dir sm, In (i, dir) entries -> file_says L fo f (pjoin p dir) $"slot_filler.json" d_filler sm ->
        filler_complete x L f d (pjoin p dir) sm) /\
     (forall cm, classifier_says L fo f p cm ->
        classes_filled cm entries /\ regression_fits L fo f (pjoin p $"intent_classifier") cm)).

(** Nothing that the documents of the engine refer to is missing. *)
Definition engine_complete (x : Ext) (L : Loader) (fo : path -> orders) (f : fs) (p : path) : Prop :=
  forall m name, file_says L fo f p $"nlu_engine.json" d_engine m -> In name (em_parsers m) ->
    parser_complete x L fo f (em_dataset m) (pjoin p name).

(** ** Intents *)
(** The parser in the directory [p] can look for the slots of this intent. *)
Definition parser_knows (L : Loader) (fo : path -> orders) (f : fs) (p : path) (i : str) : Prop :=
  (forall r, rules_at L fo f p r -> lists_intent r i) /\
  (forall entries, fillers_at L fo f p entries -> In i (map fst entries)).
(** Every parser of the engine can. *)
Definition known_everywhere (L : Loader) (fo : path -> orders) (f : fs) (p : path) (i : str) : Prop :=
  forall m name, file_says L fo f p $"nlu_engine.json" d_engine m -> In name (em_parsers m) -> parser_knows L fo f (pjoin p name) i.
(** An intent that some parser lists is known to all of them. *)
Definition intents_shared (L : Loader) (fo : path -> orders) (f : fs) (p : path) : Prop :=
  forall m name i, file_says L fo f p $"nlu_engine.json" d_engine m -> In name (em_parsers m) ->
    parser_lists L fo f (pjoin p name) (Some i) -> known_everywhere L fo f p i.
