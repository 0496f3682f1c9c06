(** C84: the answer under a narrower filter. C85: [parse] and [get_slots] agree. *)
From Coq Require Import String List NArith ZArith.
From Verif Require Import Base F32 M_Types M_Engine M_Det M_Lookup M_Feat M_Prob M_Features M_Filler M_Fs M_Json M_Load
  S_Base S_Load S_Match S_Made S_Seeds S_Narrow P_Narrow Demo Demo_Prob Demo_Load Demo_Home Demo_Made Demo_Narrow.
Import ListNotations.
Local Open Scope string_scope.
Local Open Scope list_scope.
Local Open Scope nat_scope.

(** An answer that a narrower filter allows is still the answer under this filter, when no rule
    based parser knows two readings of the text. *)
Theorem C84_parse : forall x shape ngrams mx L fo uo f p en m input o1 o2 o1' o2' w b w' b' wl wl' n r,
  from_path x shape ngrams mx L fo uo f p = Ok en -> file_says L fo f p $"nlu_engine.json" d_engine m ->
  externals_ok x L (en_resources en) input -> sizes_ok x L fo f p m (en_resources en) input ->
  get_intents_whitelist o1 en w b = Ok wl -> get_intents_whitelist o1' en w' b' = Ok wl' -> narrower wl' wl ->
  understood_one_way x L fo f p m (en_resources en) input wl -> own_entities x L fo f p m (en_resources en) input wl ->
  parse_with_alternatives x o1 o2 en input w b 0 n = Ok r ->
  (forall i, ir_name (ps_intent r) = Some i -> allowed wl' i) ->
  parse_with_alternatives x o1' o2' en input w' b' 0 n = Ok r.
Proof.
  intros x shape ngrams mx L fo uo f p en m input o1 o2 o1' o2' w b w' b' wl wl' n r He Hm X Z.
  exact (narrow_parse x shape ngrams mx L fo uo f p en m input He Hm X Z o1 o2 o1' o2' w b w' b' wl wl' n r).
Qed.
Print Assumptions C84_parse.

(** The classifier alone needs no condition on the text. *)
Theorem C84_classifier : forall mx c input f f' r, narrower f' f ->
  cl_get_intent mx c input f = Ok r -> (forall i, ir_name r = Some i -> allowed f' i) ->
  cl_get_intent mx c input f' = Ok r.
Proof. intros mx c input f f' r N. exact (classifier_narrow f' f N mx c input r). Qed.
Print Assumptions C84_classifier.

(** When patterns of two intents know the text, a narrower filter can change an allowed answer to
    another allowed answer. *)
Theorem C84_two_readings_refuted : exists x shape ngrams mx L fo uo f p en m input wl wl' r r',
  from_path x shape ngrams mx L fo uo f p = Ok en /\ file_says L fo f p $"nlu_engine.json" d_engine m /\
  externals_ok x L (en_resources en) input /\ sizes_ok x L fo f p m (en_resources en) input /\
  own_entities x L fo f p m (en_resources en) input wl /\ narrower wl' wl /\
  get_intents_whitelist id_order en wl None = Ok wl /\ get_intents_whitelist id_order en wl' None = Ok wl' /\
  parse_with_alternatives x id_order id_order en input wl None 0 0 = Ok r /\ ir_name (ps_intent r) = Some $"setTemp" /\
  allowed wl' $"setTemp" /\
  parse_with_alternatives x id_order id_order en input wl' None 0 0 = Ok r' /\ ir_name (ps_intent r') = Some $"dimLight".
Proof. exact narrow_matters. Qed.
Print Assumptions C84_two_readings_refuted.

(** When [parse] returns slots, [get_slots] succeeds and returns the same slots for its intent, if
    the rules of the engine list this intent. *)
Theorem C85_slots_found : forall x shape ngrams mx L fo uo f p en m input o1 o2 w b wl n r i,
  from_path x shape ngrams mx L fo uo f p = Ok en -> file_says L fo f p $"nlu_engine.json" d_engine m ->
  externals_ok x L (en_resources en) input -> sizes_ok x L fo f p m (en_resources en) input ->
  get_intents_whitelist o1 en w b = Ok wl -> allowed wl i -> rules_first L fo f p m -> all_list_intent L fo f p m i ->
  understood_one_way x L fo f p m (en_resources en) input wl -> own_entities x L fo f p m (en_resources en) input wl ->
  parse_with_alternatives x o1 o2 en input w b 0 n = Ok r -> ir_name (ps_intent r) = Some i -> ps_slots r <> [] ->
  get_slots_with_alternatives x en input i n = Ok (ps_slots r).
Proof. exact (fun x shape ngrams mx L fo uo f p en m input o1 o2 w b wl n r i H H0 H1 H2 => narrow_slots_found x shape ngrams mx L fo uo f p en m input H H0 H1 H2 o1 o2 w b wl n r i). Qed.
Print Assumptions C85_slots_found.

(** Without this condition, [get_slots] returns the same slots if it succeeds. *)
Theorem C85_slots : forall x shape ngrams mx L fo uo f p en m input o1 o2 w b wl n r i sl,
  from_path x shape ngrams mx L fo uo f p = Ok en -> file_says L fo f p $"nlu_engine.json" d_engine m ->
  externals_ok x L (en_resources en) input -> sizes_ok x L fo f p m (en_resources en) input ->
  get_intents_whitelist o1 en w b = Ok wl -> allowed wl i -> rules_first L fo f p m ->
  understood_one_way x L fo f p m (en_resources en) input wl -> own_entities x L fo f p m (en_resources en) input wl ->
  parse_with_alternatives x o1 o2 en input w b 0 n = Ok r -> ir_name (ps_intent r) = Some i -> ps_slots r <> [] ->
  get_slots_with_alternatives x en input i n = Ok sl -> sl = ps_slots r.
Proof.
  intros x shape ngrams mx L fo uo f p en m input o1 o2 w b wl n r i sl He Hm X Z.
  exact (narrow_slots x shape ngrams mx L fo uo f p en m input He Hm X Z o1 o2 w b wl n r i sl).
Qed.
Print Assumptions C85_slots.

(** It can fail for the intent that [parse] answered: a rule based parser that has no pattern for
    an intent refuses it, and no other parser is asked. *)
Theorem C85_unlisted_refuted : exists x shape ngrams mx L fo uo f p en m input w r i,
  from_path x shape ngrams mx L fo uo f p = Ok en /\ file_says L fo f p $"nlu_engine.json" d_engine m /\
  externals_ok x L (en_resources en) input /\ sizes_ok x L fo f p m (en_resources en) input /\
  rules_first L fo f p m /\ understood_one_way x L fo f p m (en_resources en) input w /\
  own_entities x L fo f p m (en_resources en) input w /\
  parse_with_alternatives x id_order id_order en input w None 0 0 = Ok r /\ ir_name (ps_intent r) = Some i /\
  map sl_raw_value (ps_slots r) = [$"living room"] /\ get_slots_with_alternatives x en input i 0 = Err EUnknownIntent.
Proof. exact unlisted_matters. Qed.
Print Assumptions C85_unlisted_refuted.

(** When [parse] returns an intent without slots, [get_slots] can return slots: a parser that finds
    no slot leaves the text to the next one. *)
Theorem C85_no_slots_refuted : exists x shape ngrams mx L fo uo f p en m input r i sl,
  from_path x shape ngrams mx L fo uo f p = Ok en /\ file_says L fo f p $"nlu_engine.json" d_engine m /\
  externals_ok x L (en_resources en) input /\ sizes_ok x L fo f p m (en_resources en) input /\
  rules_first L fo f p m /\ understood_one_way x L fo f p m (en_resources en) input None /\
  own_entities x L fo f p m (en_resources en) input None /\
  parse_with_alternatives x id_order id_order en input None None 0 0 = Ok r /\ ir_name (ps_intent r) = Some i /\
  ps_slots r = [] /\ get_slots_with_alternatives x en input i 0 = Ok sl /\ map sl_raw_value sl = [$"living room"].
Proof. exact silence_matters. Qed.
Print Assumptions C85_no_slots_refuted.

(** The home engine: a text of its table, without a filter and with a blacklist. *)
Example C84_C85_case :
  load_home = Ok home_engine /\ externals_ok demo_ext home_loader (en_resources home_engine) bright /\
  file_says home_loader (fun _ _ => id_order) home dir_e $"nlu_engine.json" d_engine home_model /\
  sizes_ok demo_ext home_loader (fun _ _ => id_order) home dir_e home_model (en_resources home_engine) bright /\
  get_intents_whitelist id_order home_engine None None = Ok None /\
  get_intents_whitelist id_order home_engine None (Some [$"setTemp"]) = Ok only_light /\
  narrower only_light None /\ rules_first home_loader (fun _ _ => id_order) home dir_e home_model /\
  understood_one_way demo_ext home_loader (fun _ _ => id_order) home dir_e home_model (en_resources home_engine) bright None /\
  own_entities demo_ext home_loader (fun _ _ => id_order) home dir_e home_model (en_resources home_engine) bright None /\
  parse_with_alternatives demo_ext id_order id_order home_engine bright None None 0 0 = Ok bright_answer /\
  ir_name (ps_intent bright_answer) = Some $"lightOn" /\ map sl_raw_value (ps_slots bright_answer) = [$"Kitchen"] /\
  get_slots_with_alternatives demo_ext home_engine bright $"lightOn" 0 = Ok bright_got.
Proof. exact narrow_case. Qed.
Example C85_listed_case : all_list_intent home_loader (fun _ _ => id_order) home dir_e home_model $"lightOn".
Proof. exact bright_listed. Qed.
