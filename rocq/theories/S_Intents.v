(** Specification vocabulary for C87 and C88: the intents that the files of an engine list, and
    linear scores that are numbers. *)
From Coq Require Import String List NArith ZArith.
From Verif Require Import Base F32 M_Types M_Engine M_Det M_Lookup M_Prob M_Fs M_Json M_Load S_Load S_Made S_Narrow.
Import ListNotations.

(** The document of the classifier of the probabilistic parser in the directory [p]. *)
Definition classifier_says (L : Loader) (fo : path -> orders) (f : fs) (p : path) (cm : ClassifierModel) : Prop :=
  unit_at L fo f p UProbabilistic /\
  file_says L fo f (pjoin p $"intent_classifier") $"intent_classifier.json" (fun _ => d_classifier (ld_f32 L)) cm.

(** The files of the parser in the directory [p] list this intent ([None]: no intent, which
    rule based parsers always list, and which a classifier without classes lists). *)
Definition parser_lists (L : Loader) (fo : path -> orders) (f : fs) (p : path) (j : option str) : Prop :=
  (exists r, rules_at L fo f p r /\ forall i, j = Some i -> lists_intent r i) \/
  (exists cm, classifier_says L fo f p cm /\ (In j (clm_intents cm) \/ (clm_intents cm = [] /\ j = None))).

(** The linear scores that the classifiers of the engine compute for the text are numbers. *)
Definition scores_are_numbers (x : Ext) (ngrams : list str -> nat -> list str) (mx : Math) (L : Loader) (fo : path -> orders)
    (uo : path -> nat -> HashOrder) (f : fs) (p : path) (m : EngineModel) (res : Resources) (input : str) : Prop :=
  forall name c t lr fs j, In name (em_parsers m) ->
    classifier_at x ngrams L fo uo f res (pjoin (pjoin p name) $"intent_classifier") c ->
    cl_featurizer c = Some t -> cl_logreg c = Some lr -> t input = Ok fs -> j < lr_classes lr ->
    fis_nan (mx_cell mx (f1 :: fs) (lr_rows lr) j) = false.

(** The exponential of what is not a number is not a number. *)
Definition exp_nan (mx : Math) : Prop := forall v, fis_nan v = true -> fis_nan (mx_exp mx v) = true.
