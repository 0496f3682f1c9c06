(** Specification vocabulary for C84 and C85: one text under two filters, and the two calls that
    return slots. *)
From Coq Require Import String List NArith ZArith.
From Verif Require Import Base F32 M_Types M_Engine M_Det M_Lookup M_Fs M_Json M_Load S_Load S_Match S_Made S_Seeds.
Import ListNotations.

(** [f'] allows no more intents than [f]. *)
Definition narrower (f' f : option (list str)) : Prop := forall i, allowed f' i -> allowed f i.

(** No rule based parser of the engine was taught the text in two ways under this filter. *)
Definition understood_one_way (x : Ext) (L : Loader) (fo : path -> orders) (f : fs) (p : path) (m : EngineModel)
    (res : Resources) (input : str) (filter : option (list str)) : Prop :=
  forall name r i s j s', In name (em_parsers m) -> rules_at L fo f (pjoin p name) r ->
    understood x L res input filter r i s -> understood x L res input filter r j s' -> i = j /\ s = s'.

(** The tables of the engine understand the text as an intent thanks to the entities listed for
    this intent, not to those of other intents. *)
Definition own_entities (x : Ext) (L : Loader) (fo : path -> orders) (f : fs) (p : path) (m : EngineModel)
    (res : Resources) (input : str) (filter : option (list str)) : Prop :=
  forall name t i s, In name (em_parsers m) -> rules_at L fo f (pjoin p name) (Table t) ->
    understood x L res input filter (Table t) i s -> understood x L res input (Some [i]) (Table t) i s.

(** All the parsers but the last one are rule based. *)
Definition rules_first (L : Loader) (fo : path -> orders) (f : fs) (p : path) (m : EngineModel) : Prop :=
  forall names last, em_parsers m = names ++ [last] -> forall name, In name names -> exists r, rules_at L fo f (pjoin p name) r.

(** The rules list the intent: there are patterns for it, or it is in the list of names of the
    table. *)
Definition lists_intent (r : rules) (i : str) : Prop :=
  match r with Patterns m => In i (map fst (dm_patterns m)) | Table m => In i (lm_intents_names m) end.
Definition all_list_intent (L : Loader) (fo : path -> orders) (f : fs) (p : path) (m : EngineModel) (i : str) : Prop :=
  forall name r, In name (em_parsers m) -> rules_at L fo f (pjoin p name) r -> lists_intent r i.

(** The filter lets an entry of the list of intents through; it never removes the absence of
    intent. *)
Definition may_list (filter : option (list str)) (e : IntentResult) : Prop :=
  match ir_name e with Some i => allowed filter i | None => True end.
(** The first entry that the filter lets through. *)
Definition first_listed (filter : option (list str)) (l : list IntentResult) (e : IntentResult) : Prop :=
  exists l1 l2, l = l1 ++ e :: l2 /\ may_list filter e /\ forall a, In a l1 -> ~ may_list filter a.
