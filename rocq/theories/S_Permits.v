(** Specification vocabulary for C96: the intents that the files of an engine mention, and what a
    pair of filters permits. *)
From Coq Require Import String List.
From Verif Require Import Base M_Types M_Engine M_Det M_Lookup M_Prob M_Fs M_Json M_Load S_Base S_Engine S_Made S_Narrow S_Intents.
Import ListNotations.

(** The documents of the parser in the directory [p] mention this intent. *)
Definition parser_mentions (L : Loader) (fo : path -> orders) (f : fs) (p : path) (i : str) : Prop :=
  (exists m, rules_at L fo f p (Patterns m) /\ (In i (map fst (dm_patterns m)) \/ In i (map fst (dm_slots m)))) \/
  (exists m, rules_at L fo f p (Table m) /\
     (In i (lm_intents_names m) \/ exists g, In g (lm_scopes m) /\ In i (gs_intents g))) \/
  (exists cm, classifier_says L fo f p cm /\ In (Some i) (clm_intents cm)).
Definition engine_mentions (L : Loader) (fo : path -> orders) (f : fs) (p : path) (i : str) : Prop :=
  exists m name, file_says L fo f p $"nlu_engine.json" d_engine m /\ In name (em_parsers m) /\
    parser_mentions L fo f (pjoin p name) i.

(** Without filter every intent is permitted; otherwise the intents of the dataset that are in
    the whitelist, if there is one, and not in the blacklist. *)
Definition permits (en : Engine) (whitelist blacklist : option (list str)) (i : str) : Prop :=
  (whitelist = None /\ blacklist = None) \/ (known en i /\ allowed whitelist blacklist i).
