(** C93: the slots of an answer are declared. *)
From Coq Require Import String List NArith ZArith.
From Verif Require Import Base F32 M_Types M_Engine M_Fs M_Json M_Load S_Base S_Match S_Made S_Declared
  P_Declared Demo Demo_Prob Demo_Load Demo_Home Demo_Made Demo_Declared.
Import ListNotations.
Local Open Scope nat_scope.

(** Slots are only given for an intent, and under names that the dataset declares for it. *)
Theorem C93_names : forall x shape ngrams mx L fo uo f p en o1 o2 input white black n salts res intent s,
  documents_agree L fo f p -> from_path x shape ngrams mx L fo uo f p = Ok en ->
  parse_with_alternatives x o1 o2 en input white black n salts = Ok res -> slot_of_answer res intent s ->
  exists i, intent = Some i /\ declares_name (en_dataset en) i (sl_slot_name s).
Proof. exact answer_names. Qed.
Print Assumptions C93_names.

(** Without a lookup table, they have the declared entities too. *)
Theorem C93_entities : forall x shape ngrams mx L fo uo f p en o1 o2 input white black n salts res intent s,
  documents_agree L fo f p -> no_table L fo f p -> from_path x shape ngrams mx L fo uo f p = Ok en ->
  parse_with_alternatives x o1 o2 en input white black n salts = Ok res -> slot_of_answer res intent s ->
  exists i, intent = Some i /\ declares (en_dataset en) i (sl_slot_name s) (sl_entity s).
Proof. exact answer_entities. Qed.
Print Assumptions C93_entities.

Theorem C93_get_slots_names : forall x shape ngrams mx L fo uo f p en input intent salts slots s,
  documents_agree L fo f p -> from_path x shape ngrams mx L fo uo f p = Ok en ->
  get_slots_with_alternatives x en input intent salts = Ok slots -> In s slots ->
  declares_name (en_dataset en) intent (sl_slot_name s).
Proof. exact slots_names. Qed.
Print Assumptions C93_get_slots_names.

Theorem C93_get_slots_entities : forall x shape ngrams mx L fo uo f p en input intent salts slots s,
  documents_agree L fo f p -> no_table L fo f p -> from_path x shape ngrams mx L fo uo f p = Ok en ->
  get_slots_with_alternatives x en input intent salts = Ok slots -> In s slots ->
  declares (en_dataset en) intent (sl_slot_name s) (sl_entity s).
Proof. exact slots_entities. Qed.
Print Assumptions C93_get_slots_entities.

(** A slot that was answered once can be asked for in any other text. *)
Theorem C93_extractable : forall x shape ngrams mx L fo uo f p en o1 o2 input white black n salts res i s text alts,
  documents_agree L fo f p -> no_table L fo f p -> from_path x shape ngrams mx L fo uo f p = Ok en ->
  parse_with_alternatives x o1 o2 en input white black n salts = Ok res -> slot_of_answer res (Some i) s ->
  entity_parsers_answer (en_resources en) (sl_entity s) text ->
  exists found, extract_slot_with_alternatives x en text i (sl_slot_name s) alts = Ok found.
Proof. exact answer_extractable. Qed.
Print Assumptions C93_extractable.

(** With a table, a slot can be filled by an entity that is not its own: the table does not
    distinguish entities whose names differ by letter case. *)
Theorem C93_table_entities_refuted : exists x shape ngrams mx L fo uo f p en o1 o2 input res s,
  documents_agree L fo f p /\ from_path x shape ngrams mx L fo uo f p = Ok en /\
  parse_with_alternatives x o1 o2 en input None None 0 0 = Ok res /\ slot_of_answer res (Some $"paint") s /\
  declares (en_dataset en) $"paint" (sl_slot_name s) $"place" /\ sl_entity s = $"Place".
Proof. exact confused. Qed.
Print Assumptions C93_table_entities_refuted.

(** Loading does not check that the documents agree. *)
Theorem C93_unchecked_refuted : exists x shape ngrams mx L fo uo f p en o1 o2 input res s e,
  from_path x shape ngrams mx L fo uo f p = Ok en /\
  parse_with_alternatives x o1 o2 en input None None 0 0 = Ok res /\ slot_of_answer res (Some $"lightOn") s /\
  ~ declares_name (en_dataset en) $"lightOn" (sl_slot_name s) /\
  extract_slot x en input $"lightOn" (sl_slot_name s) = Err e.
Proof. exact undeclared. Qed.
Print Assumptions C93_unchecked_refuted.

Example C93_case :
  documents_agree home_loader home_orders home dir_e /\ load_home = Ok home_engine /\
  documents_agree two_parsers home_orders home dir_e /\ no_table two_parsers home_orders home dir_e /\
  load_plain = Ok plain_engine /\
  parse_with_alternatives demo_ext id_order id_order plain_engine turn_on None None 1 0 = Ok plain_answer /\
  ir_name (ps_intent plain_answer) = Some $"lightOn" /\
  map (fun s => (sl_slot_name s, sl_entity s)) (ps_slots plain_answer) = [($"room", $"room")] /\
  entity_parsers_answer (en_resources plain_engine) $"room" $"in the kitchen" /\
  exists s, extract_slot_with_alternatives demo_ext plain_engine $"in the kitchen" $"lightOn" $"room" 0 = Ok (Some s) /\
    sl_raw_value s = $"kitchen".
Proof.
  exact (conj home_agrees (conj home_eq (conj plain_agrees (conj plain_no_table (conj plain_eq (conj plain_answers
    (conj (proj1 plain_slots) (conj (proj2 plain_slots) (conj plain_entities plain_extracts))))))))).
Qed.
