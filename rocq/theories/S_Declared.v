(** Specification vocabulary for C93: the slots that an engine declares. *)
From Coq Require Import String List NArith ZArith.
From Verif Require Import Base F32 M_Types M_Engine M_Det M_Lookup M_Feat M_Prob M_Features M_Filler M_Cache M_Res M_Fs M_Json M_Load
  M_Inject S_Base S_Utils S_Det S_Rules S_Load S_Match S_Inject S_Made.
Import ListNotations.

(** A slot of an answer, with the intent it is given for: the main intent or an alternative. *)
Inductive slot_of_answer (res : ParseResult) : option str -> Slot -> Prop :=
| main_slot s : In s (ps_slots res) -> slot_of_answer res (ir_name (ps_intent res)) s
| alternative_slot a s : In a (ps_alternatives res) -> In s (al_slots a) -> slot_of_answer res (ir_name (al_intent a)) s.

(** The dataset of the engine declares the slot for the intent, with this entity. *)
Definition declares (d : DatasetMetadata) (intent slot entity : str) : Prop :=
  exists mapping, sget intent (ds_slot_name_mappings d) = Some mapping /\ sget slot mapping = Some entity.
Definition declares_name (d : DatasetMetadata) (intent slot : str) : Prop := exists entity, declares d intent slot entity.

(** ** The documents of an engine agree: what the document of a parser says about the slots of
    an intent is said by the dataset too. *)

(** The patterns. *)
Definition patterns_agree (d : DatasetMetadata) (m : DetModel) : Prop :=
  forall intent decls slot entity, In (intent, decls) (dm_slots m) -> In (slot, entity) decls ->
    declares d intent slot entity.
(** A lookup table says which slots the entries of an intent have, not their entities. *)
Definition table_agrees (d : DatasetMetadata) (m : LookupModel) : Prop :=
  forall h id ids k intent slot, In (h, (id, ids)) (lm_map m) -> at_id (lm_intents_names m) id intent ->
    In k ids -> at_id (lm_slots_names m) k slot -> declares_name d intent slot.
(** The slot filler of an intent. *)
Definition filler_agrees (d : DatasetMetadata) (intent : str) (m : SlotFillerModel) : Prop :=
  forall slot entity, In (slot, entity) (sm_mapping m) -> declares d intent slot entity.

Definition documents_agree (L : Loader) (fo : path -> orders) (f : fs) (p : path) : Prop :=
  forall m, file_says L fo f p $"nlu_engine.json" d_engine m ->
  forall name, In name (em_parsers m) ->
    (forall dm, file_says L fo f (pjoin p name) $"intent_parser.json" d_deterministic dm -> patterns_agree (em_dataset m) dm) /\
    (forall lm, file_says L fo f (pjoin p name) $"intent_parser.json" d_lookup lm -> table_agrees (em_dataset m) lm) /\
    (forall entries intent dir sm, file_says L fo f (pjoin p name) $"intent_parser.json" (fun _ => d_probabilistic) entries ->
       In (intent, dir) entries ->
       file_says L fo f (pjoin (pjoin p name) dir) $"slot_filler.json" d_filler sm ->
       filler_agrees (em_dataset m) intent sm).

(** No parser of the engine is a lookup table. *)
Definition no_table (L : Loader) (fo : path -> orders) (f : fs) (p : path) : Prop :=
  forall m name, file_says L fo f p $"nlu_engine.json" d_engine m -> In name (em_parsers m) ->
    ~ unit_at L fo f (pjoin p name) ULookup.

(** The entity parsers answer when they look for one builtin entity, or for this entity. *)
Definition entity_parsers_answer (res : Resources) (entity input : str) : Prop :=
  (forall kind cached n, exists es, rs_builtin res input (Some [kind]) cached n = Ok es) /\
  (forall n, exists es, rs_custom res input (Some [entity]) n = Ok es).
