(** C03: filters that allow the same intents give the same answer; C21: a rule based parser that
    is asked for one intent is certain. *)
From Coq Require Import String List NArith ZArith Bool.
From Verif Require Import Base F32 M_Types M_Utils M_Engine M_Det M_Lookup M_Prob M_Fs M_Json M_Load
  S_Base S_Engine S_Rank S_Made P_Base P_Engine P_Filters
  Demo Demo_Rules Demo_Prob Demo_Crf Demo_Load Demo_Home Demo_Made Demo_Filters.
Import ListNotations.
Local Open Scope string_scope.
Local Open Scope list_scope.
Local Open Scope nat_scope.

(** Whatever the order and the number of occurrences of the names, and whether the intents are
    named in the whitelist or excluded by the blacklist. *)
Theorem C03_same_filters : forall x shape ngrams mx L fo uo f p en,
  from_path x shape ngrams mx L fo uo f p = Ok en ->
  forall o1 o1' o2 input w b w' b' n salts,
  names_known en w -> names_known en b -> names_known en w' -> names_known en b' ->
  (w = None /\ b = None <-> w' = None /\ b' = None) ->
  (forall i, known en i -> (allowed w b i <-> allowed w' b' i)) ->
  parse_with_alternatives x o1 o2 en input w b n salts = parse_with_alternatives x o1' o2 en input w' b' n salts.
Proof. exact same_filters. Qed.
Print Assumptions C03_same_filters.

Example C03_same_filters_case :
  load_home = Ok home_engine /\
  names_known home_engine (Some [$"lightOn"; $"lightOn"]) /\ names_known home_engine (Some [$"setTemp"]) /\
  (forall i, known home_engine i -> (allowed (Some [$"lightOn"; $"lightOn"]) None i <-> allowed None (Some [$"setTemp"]) i)) /\
  filtered_intent (Some [$"lightOn"; $"lightOn"]) None = Some $"lightOn" /\
  filtered_intent None (Some [$"setTemp"]) = Some $"lightOn" /\ filtered_intent (Some [$"setTemp"]) None <> Some $"lightOn".
Proof. exact filters_case. Qed.

Theorem C21_deterministic_certain : forall x ord dp input intent ms, NoDup (hkeys (dp_scopes dp)) ->
  det_matches x ord dp input (Some [intent]) = Ok ms -> countable ms ->
  exists r, det_parse x ord dp input (Some [intent]) = Ok r /\ ir_score (pr_intent r) = f1.
Proof. exact det_one_score. Qed.
Print Assumptions C21_deterministic_certain.

Theorem C21_lookup_certain : forall x ord lp input intent ms,
  lookup_matches x ord lp input (Some [intent]) = Ok ms -> countable ms ->
  exists r, lookup_parse x ord lp input (Some [intent]) = Ok r /\ ir_score (pr_intent r) = f1.
Proof. exact lookup_one_score. Qed.
Print Assumptions C21_lookup_certain.

(** The text of [C21_case] is ambiguous without a filter. *)
Example C21_certain_case :
  NoDup (hkeys (dp_scopes demo_dp)) /\
  map slot_count (get_ok [] (det_matches demo_ext id_order demo_dp temp_text (Some [$"setTemp"]))) = [2] /\
  is_ok (det_matches demo_ext id_order demo_dp temp_text (Some [$"setTemp"])) = true /\
  ir_name (pr_intent (get_ok no_ipr (det_parse demo_ext id_order demo_dp temp_text (Some [$"setTemp"])))) = Some $"setTemp" /\
  ir_name (pr_intent (get_ok no_ipr (det_parse demo_ext id_order demo_dp temp_text None))) = None /\
  map slot_count (get_ok [] (lookup_matches demo_ext id_order (demo_lp 0) temp_text (Some [$"setTemp"]))) = [2] /\
  is_ok (lookup_matches demo_ext id_order (demo_lp 0) temp_text (Some [$"setTemp"])) = true.
Proof. exact certain_case. Qed.
