(** Specification vocabulary for C89: the classifiers of an engine list each class once. *)
From Coq Require Import String List NArith ZArith.
From Verif Require Import Base F32 M_Types M_Prob M_Fs M_Json M_Load S_Load S_Made S_Intents.
Import ListNotations.

Definition classes_once (L : Loader) (fo : path -> orders) (f : fs) (p : path) (m : EngineModel) : Prop :=
  forall name cm, In name (em_parsers m) -> classifier_says L fo f (pjoin p name) cm -> NoDup (clm_intents cm).
