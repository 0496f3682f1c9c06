(** C95: an engine whose documents refer to nothing that is missing answers every text. *)
From Coq Require Import String List NArith ZArith.
From Verif Require Import Base F32 M_Types M_Engine M_Prob M_Fs M_Json M_Load S_Base S_Engine S_Made S_Declared S_Safe S_Complete
  P_Complete Demo Demo_Rules Demo_Prob Demo_Crf Demo_Load Demo_Home Demo_Made Demo_Safe Demo_Declared Demo_Complete.
Import ListNotations.
Local Open Scope nat_scope.

Theorem C95_parse : forall x shape ngrams mx L fo uo f,
  libraries_answer L f -> finds_what_is_asked L f -> builtin_names x -> sound_files L fo f ->
  forall p en input, from_path x shape ngrams mx L fo uo f p = Ok en ->
  engine_complete x L fo f p -> externals_behave x mx L f -> texts_below_limit x (en_resources en) input ->
  forall o1 o2 whitelist blacklist intent_alternatives slot_alternatives,
  names_known en whitelist -> names_known en blacklist ->
  intent_alternatives = 0 \/ intents_shared L fo f p ->
  exists r, parse_with_alternatives x o1 o2 en input whitelist blacklist intent_alternatives slot_alternatives = Ok r.
Proof. exact complete_parse. Qed.
Print Assumptions C95_parse.

Theorem C95_get_intents : forall x shape ngrams mx L fo uo f,
  libraries_answer L f -> finds_what_is_asked L f -> builtin_names x -> sound_files L fo f ->
  forall p en input, from_path x shape ngrams mx L fo uo f p = Ok en ->
  engine_complete x L fo f p -> externals_behave x mx L f -> texts_below_limit x (en_resources en) input ->
  forall o, exists l, get_intents o en input = Ok l.
Proof. exact complete_get_intents. Qed.
Print Assumptions C95_get_intents.

Theorem C95_get_slots : forall x shape ngrams mx L fo uo f,
  libraries_answer L f -> finds_what_is_asked L f -> builtin_names x -> sound_files L fo f ->
  forall p en input, from_path x shape ngrams mx L fo uo f p = Ok en ->
  engine_complete x L fo f p -> externals_behave x mx L f -> texts_below_limit x (en_resources en) input ->
  forall i slot_alternatives, known_everywhere L fo f p i ->
  exists slots, get_slots_with_alternatives x en input i slot_alternatives = Ok slots.
Proof. exact complete_get_slots. Qed.
Print Assumptions C95_get_slots.

Theorem C95_extract_slot : forall x shape ngrams mx L fo uo f,
  libraries_answer L f -> finds_what_is_asked L f -> sound_files L fo f ->
  forall p en input, from_path x shape ngrams mx L fo uo f p = Ok en ->
  externals_behave x mx L f -> texts_below_limit x (en_resources en) input ->
  forall i slot e slot_alternatives, declares (en_dataset en) i slot e -> known_entity x (en_dataset en) e ->
  exists o, extract_slot_with_alternatives x en input i slot slot_alternatives = Ok o.
Proof. exact complete_extract. Qed.
Print Assumptions C95_extract_slot.

(** Loading does not check completeness. *)
Theorem C95_loaded_answers_refuted :
  ~ (forall x shape ngrams mx L fo uo f p en input o1 o2,
       externals_behave x mx L f -> sound_files L fo f -> libraries_answer L f -> finds_what_is_asked L f -> builtin_names x ->
       from_path x shape ngrams mx L fo uo f p = Ok en -> texts_below_limit x (en_resources en) input ->
       exists r, parse_with_alternatives x o1 o2 en input None None 0 0 = Ok r).
Proof. exact loading_checks_nothing. Qed.
Print Assumptions C95_loaded_answers_refuted.

(** The demo engine (patterns, a table and a classifier with two slot fillers) is complete. *)
Example C95_case :
  libraries_answer home_loader home /\ finds_what_is_asked home_loader home /\ builtin_names demo_ext /\
  sound_files home_loader home_orders home /\ load_home = Ok home_engine /\
  engine_complete demo_ext home_loader home_orders home dir_e /\ externals_behave demo_ext demo_math home_loader home /\
  texts_below_limit demo_ext (en_resources home_engine) spoken /\
  names_known home_engine (Some [$"setTemp"]) /\ names_known home_engine None /\
  intents_shared home_loader home_orders home dir_e /\ known_everywhere home_loader home_orders home dir_e $"setTemp" /\
  declares (en_dataset home_engine) $"setTemp" $"degrees" $"snips/number" /\
  known_entity demo_ext (en_dataset home_engine) $"snips/number".
Proof.
  exact (conj home_libraries (conj home_asked (conj demo_names (conj (home_sound home) (conj home_eq (conj home_complete (conj (home_externals home)
    (conj home_texts (conj (proj1 home_filters) (conj (proj2 home_filters) (conj home_shared (conj home_known home_declares)))))))))))).
Qed.
(** Without the slot filler of the intent, the same text is an error. *)
Example C95_lacking :
  (exists r, parse_with_alternatives demo_ext id_order id_order home_engine $"set it" None None 0 0 = Ok r /\
    ir_name (ps_intent r) = Some $"setTemp") /\
  load_lacking = Ok lacking_engine /\
  parse_with_alternatives demo_ext id_order id_order lacking_engine $"set it" None None 0 0 = Err EUnknownIntent.
Proof. exact (conj home_succeeds (conj lacking_eq lacking_fails)). Qed.
