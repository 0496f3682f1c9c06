(** Small texts, entities and models for the examples of Properties_Utils. Not part of the
    model of the repository. *)
From Coq Require Import String List NArith ZArith.
From Verif Require Import Base M_Types M_Utils M_Det.
Import ListNotations.

Definition demo_ents : list MatchedEntity :=
  [mkME (12, 16) $"room"; mkME (0, 5) $"color"; mkME (3, 9) $"size"; mkME (9, 11) $"x"].
Definition demo_text : str := $"set color red in kitchen now".
Definition demo_es : list MatchedEntity := [mkME (17, 24) $"room"; mkME (10, 13) $"color"; mkME (21, 24) $"hen"].
Definition stop_model : DetModel :=
  mkDM $"en" [] [] [] [($"lightOn", [$"please"])] true.
