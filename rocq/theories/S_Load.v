(** Specification vocabulary for loading an engine. *)
From Coq Require Import String List NArith Bool.
From Verif Require Import Base M_Types M_Features M_Fs M_Json M_Load.
Import ListNotations.

(** The json document of a file. *)
Definition json_at (L : Loader) (f : fs) (p : path) (j : json) : Prop :=
  exists c, f (resolve p) = Some (File c) /\ ld_json L c = Some j.

(** An object whose field [name] is given exactly once, with value [v]. *)
Definition field_once (j : json) (name : str) (v : json) : Prop :=
  exists before after, j = JObj (before ++ (name, v) :: after) /\
    forall k w, In (k, w) (before ++ after) -> k <> name.

(** [s] is one of the texts in a document. *)
Inductive text_in (s : str) : json -> Prop :=
| text_here : text_in s (JStr s)
| text_arr l j : In j l -> text_in s j -> text_in s (JArr l)
| text_obj l k j : In (k, j) l -> text_in s j -> text_in s (JObj l).

(** A name that stays below the directory it is looked for in: relative, without "..". *)
Definition plain (s : str) : Prop := is_absolute s = false /\ ~ In CUp (components s).

(** Two file trees with the same contents below a directory. *)
Definition same_below (d : list str) (f f' : fs) : Prop := forall q, f (d ++ q) = f' (d ++ q).

(** The external loaders only look below the path they are given. *)
Definition loaders_local (L : Loader) : Prop :=
  forall f f' p, same_below (resolve p) f f' ->
    ld_builtin L f p = ld_builtin L f' p /\ ld_gazetteer L f p = ld_gazetteer L f' p /\
    ld_tagger L f p = ld_tagger L f' p.

(** Every classifier model below the directory lists at least two classes, one of them the
    null class. *)
Definition classifiers_with_null (L : Loader) (f : fs) : Prop :=
  forall p j m, json_at L f p j -> d_classifier (ld_f32 L) j = Ok m ->
    2 <= length (clm_intents m) /\ In None (clm_intents m).

(** A file name without directory. *)
Definition simple_name (s : str) : Prop := s <> [] /\ s <> $"." /\ s <> $".." /\ ~ In slash s.

(** [t] is [s] without what follows its last dot, when that leaves a name. *)
Definition without_extension (s t : str) : Prop :=
  (t <> [] /\ exists e, s = t ++ $"." ++ e /\ ~ In dot e) \/
  (t = s /\ forall t' e, s = t' ++ $"." ++ e -> ~ In dot e -> t' = []).

(** The directory of the resources of an engine in directory [p], for language [l]. *)
Definition resources_dir (L : Loader) (p : path) (l : lang) : path :=
  pjoin (pjoin p $"resources") (ld_lang_name L l).

(** The contents of directory [d'] of [f'] are those of directory [d] of [f]. *)
Definition same_contents (f : fs) (d : list str) (f' : fs) (d' : list str) : Prop := forall q, f (d ++ q) = f' (d' ++ q).

(** What the external loaders give depends only on what is at or below the path they are
    given, not on where that is. *)
Definition loaders_relative (L : Loader) : Prop :=
  forall f p f' p', same_contents f (resolve p) f' (resolve p') ->
    ld_builtin L f p = ld_builtin L f' p' /\ ld_gazetteer L f p = ld_gazetteer L f' p' /\
    ld_tagger L f p = ld_tagger L f' p'.
