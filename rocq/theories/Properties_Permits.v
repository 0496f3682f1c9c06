(** C96: filters that forbid nothing, and filters compared on the intents of the parsers. *)
From Coq Require Import String List NArith.
From Verif Require Import Base M_Types M_Engine M_Prob M_Fs M_Json M_Load S_Engine S_Made S_Permits P_Permits
  Demo Demo_Rules Demo_Prob Demo_Crf Demo_Load Demo_Home Demo_Made Demo_Declared Demo_Complete Demo_Permits.
Import ListNotations.
Local Open Scope nat_scope.

(** Filters that permit the same intents among those that the files of the engine mention. *)
Theorem C96_permits : forall x shape ngrams mx L fo uo f p en, from_path x shape ngrams mx L fo uo f p = Ok en ->
  forall o1 o1' o2 input w b w' b' intent_alternatives slot_alternatives,
  names_known en w -> names_known en b -> names_known en w' -> names_known en b' ->
  (forall i, engine_mentions L fo f p i -> (permits en w b i <-> permits en w' b' i)) ->
  parse_with_alternatives x o1 o2 en input w b intent_alternatives slot_alternatives =
  parse_with_alternatives x o1' o2 en input w' b' intent_alternatives slot_alternatives.
Proof. exact filters_agree. Qed.
Print Assumptions C96_permits.

(** A whitelist of all intents, or an empty blacklist, is no filter when the dataset lists the
    intents of the parsers. *)
Theorem C96_neutral : forall x shape ngrams mx L fo uo f p en, from_path x shape ngrams mx L fo uo f p = Ok en ->
  forall o1 o1' o2 input w b intent_alternatives slot_alternatives,
  names_known en w -> (forall i, engine_mentions L fo f p i -> known en i) ->
  (forall l i, w = Some l -> known en i -> In i l) -> (b = None \/ b = Some []) ->
  parse_with_alternatives x o1 o2 en input w b intent_alternatives slot_alternatives =
  parse_with_alternatives x o1' o2 en input None None intent_alternatives slot_alternatives.
Proof. exact neutral. Qed.
Print Assumptions C96_neutral.

(** Otherwise an empty blacklist can change the answer. *)
Theorem C96_empty_blacklist_refuted :
  ~ (forall x shape ngrams mx L fo uo f p en o1 o2 input n salts,
       from_path x shape ngrams mx L fo uo f p = Ok en ->
       parse_with_alternatives x o1 o2 en input None (Some []) n salts = parse_with_alternatives x o1 o2 en input None None n salts).
Proof. exact nothing_forbidden. Qed.
Print Assumptions C96_empty_blacklist_refuted.

(** In the demo engine the whitelist [lightOn], twice, permits what the blacklist [setTemp] permits,
    and the dataset lists the intents of the parsers. *)
Example C96_case :
  load_home = Ok home_engine /\
  names_known home_engine (Some [$"lightOn"; $"lightOn"]) /\ names_known home_engine (Some [$"setTemp"]) /\
  (forall i, permits home_engine (Some [$"lightOn"; $"lightOn"]) None i <-> permits home_engine None (Some [$"setTemp"]) i) /\
  (forall i, engine_mentions home_loader home_orders home dir_e i -> known home_engine i) /\
  names_known home_engine (Some home_names) /\ (forall l i, Some home_names = Some l -> known home_engine i -> In i l).
Proof.
  exact (conj home_eq (conj (proj1 home_same) (conj (proj1 (proj2 home_same)) (conj home_permits (conj home_mentions home_all))))).
Qed.
