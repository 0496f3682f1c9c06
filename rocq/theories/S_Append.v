(** Specification vocabulary for C97: engines that differ by their parsers only. *)
From Coq Require Import String List.
From Verif Require Import Base M_Types M_Engine M_Fs M_Json S_Base S_Load.
Import ListNotations.

(** The engine with other parsers. *)
Definition with_parsers (en : Engine) (parsers : list IntentParser) : Engine :=
  mkEngine (en_dataset en) parsers (en_resources en).

(** The engine with more parsers, tried after its own. *)
Definition followed_by (en : Engine) (more : list IntentParser) : Engine :=
  with_parsers en (en_parsers en ++ more).

(** Two file trees that agree in the directory [p], but for the main document of the engine. *)
Definition same_but_main (p : path) (f f' : fs) : Prop :=
  forall n q, n <> $"nlu_engine.json" -> f (resolve p ++ n :: q) = f' (resolve p ++ n :: q).

(** A relative name without "..", which does not designate the directory itself nor its main document. *)
Definition folder (s : str) : Prop :=
  plain s /\ exists n rest, components s = CName n :: rest /\ n <> $"nlu_engine.json".

(** The main document with more parsers. *)
Definition with_names (m : EngineModel) (names : list str) : EngineModel :=
  mkEM (em_dataset m) (em_parsers m ++ names) (em_builtin m) (em_custom m).
