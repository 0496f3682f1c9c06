(** Specification vocabulary for C82: the same directory loaded by two processes, whose hash
    tables have different iteration orders. *)
From Coq Require Import String List NArith ZArith Permutation.
From Verif Require Import Base F32 M_Types M_Engine M_Det M_Lookup M_Feat M_Features M_Filler M_Cache M_Res M_Fs M_Json M_Load
  S_Load S_Made.
Import ListNotations.

(** Contract of the external entity parsers: the filter is a set of kinds, the order in which
    the kinds are given does not matter. *)
Definition filters_are_sets (L : Loader) : Prop :=
  (forall f p b, ld_builtin L f p = Ok b ->
     forall s k k' n, Permutation k k' -> b s (Some k) n = b s (Some k') n) /\
  (forall f p g, ld_gazetteer L f p = Ok g ->
     forall s k k' n, Permutation k k' -> g s (Some k) n = g s (Some k') n).

(** No table of cooccurrences gives two numbers to the same pair of words. *)
Definition pairs_once (L : Loader) (f : fs) : Prop :=
  forall p j o m, json_at L f p j -> d_cooccurrence o j = Ok m -> NoDup (map snd (cm_pairs m)).

(** At most two texts have the property. *)
Definition at_most_two (P : str -> Prop) : Prop :=
  forall i j k, P i -> P j -> P k -> i = j \/ i = k \/ j = k.

(** The text, and the tables, have a reasonable size for the rule based parsers of the engine. *)
Definition sizes_ok (x : Ext) (L : Loader) (fo : path -> orders) (f : fs) (p : path) (m : EngineModel)
    (res : Resources) (input : str) : Prop :=
  forall name r, In name (em_parsers m) -> rules_at L fo f (pjoin p name) r -> of_reasonable_size x res input r.

(** No rule based parser of the engine was taught the text for more than two allowed intents. *)
Definition hardly_ambiguous (x : Ext) (L : Loader) (fo : path -> orders) (f : fs) (p : path) (m : EngineModel)
    (res : Resources) (input : str) (filter : option (list str)) : Prop :=
  forall name r, In name (em_parsers m) -> rules_at L fo f (pjoin p name) r ->
    at_most_two (fun i => exists slots, understood x L res input filter r i slots).

(** [get_intents] gives two intents of the text the same confidence only if they are the same. *)
Definition no_ties (o : HashOrder) (en : Engine) (input : str) : Prop :=
  forall l r r', get_intents o en input = Ok l -> In r l -> In r' l -> feq (ir_score r) (ir_score r') = true -> r = r'.
