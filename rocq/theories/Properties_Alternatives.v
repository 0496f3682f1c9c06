(** C94: asking for alternative values of the slots changes nothing else. *)
From Coq Require Import String List NArith ZArith.
From Verif Require Import Base F32 M_Types M_Engine M_Fs M_Json M_Load S_Base S_Alternatives S_Declared
  P_Alternatives Demo Demo_Prob Demo_Load Demo_Home Demo_Made Demo_Declared Demo_Alternatives.
Import ListNotations.
Local Open Scope nat_scope.

Theorem C94_parse : forall x shape ngrams mx L fo uo f p en o1 o2 input white black k n n',
  alternatives_apart L -> from_path x shape ngrams mx L fo uo f p = Ok en ->
  same_outcome same_answer (parse_with_alternatives x o1 o2 en input white black k n)
                           (parse_with_alternatives x o1 o2 en input white black k n').
Proof. exact parse_apart. Qed.
Print Assumptions C94_parse.

Theorem C94_get_slots : forall x shape ngrams mx L fo uo f p en input intent n n',
  alternatives_apart L -> from_path x shape ngrams mx L fo uo f p = Ok en ->
  same_outcome same_slots (get_slots_with_alternatives x en input intent n) (get_slots_with_alternatives x en input intent n').
Proof. exact slots_apart. Qed.
Print Assumptions C94_get_slots.

Theorem C94_extract : forall x shape ngrams mx L fo uo f p en input intent slot n n',
  alternatives_apart L -> from_path x shape ngrams mx L fo uo f p = Ok en ->
  same_outcome same_found (extract_slot_with_alternatives x en input intent slot n)
                          (extract_slot_with_alternatives x en input intent slot n').
Proof. exact extract_apart. Qed.
Print Assumptions C94_extract.

(** No slot gets more alternatives than were asked for. *)
Theorem C94_parse_bound : forall x shape ngrams mx L fo uo f p en o1 o2 input white black k n res intent s,
  alternatives_bounded L -> from_path x shape ngrams mx L fo uo f p = Ok en ->
  parse_with_alternatives x o1 o2 en input white black k n = Ok res -> slot_of_answer res intent s ->
  length (sl_alternatives s) <= n.
Proof. exact parse_bounded. Qed.
Print Assumptions C94_parse_bound.

Theorem C94_get_slots_bound : forall x shape ngrams mx L fo uo f p en input intent n slots s,
  alternatives_bounded L -> from_path x shape ngrams mx L fo uo f p = Ok en ->
  get_slots_with_alternatives x en input intent n = Ok slots -> In s slots -> length (sl_alternatives s) <= n.
Proof. exact slots_bounded. Qed.
Print Assumptions C94_get_slots_bound.

Theorem C94_extract_bound : forall x shape ngrams mx L fo uo f p en input intent slot n s,
  alternatives_bounded L -> from_path x shape ngrams mx L fo uo f p = Ok en ->
  extract_slot_with_alternatives x en input intent slot n = Ok (Some s) -> length (sl_alternatives s) <= n.
Proof. exact extract_bounded. Qed.
Print Assumptions C94_extract_bound.

(** The calls that do not ask for alternatives get none. *)
Theorem C94_none : forall x shape ngrams mx L fo uo f p en,
  alternatives_bounded L -> from_path x shape ngrams mx L fo uo f p = Ok en ->
  (forall o1 o2 input white black res, parse x o1 o2 en input white black = Ok res ->
     ps_alternatives res = [] /\ forall s, In s (ps_slots res) -> sl_alternatives s = []) /\
  (forall input intent slots s, get_slots x en input intent = Ok slots -> In s slots -> sl_alternatives s = []) /\
  (forall input intent slot s, extract_slot x en input intent slot = Ok (Some s) -> sl_alternatives s = []).
Proof. exact none_asked. Qed.
Print Assumptions C94_none.

Example C94_case :
  alternatives_apart rich_loader /\ alternatives_bounded rich_loader /\ load_rich = Ok rich_engine /\
  parse_with_alternatives demo_ext id_order id_order rich_engine turn_on None None 1 0 = Ok (rich_answer 0) /\
  parse_with_alternatives demo_ext id_order id_order rich_engine turn_on None None 1 2 = Ok (rich_answer 2) /\
  map (fun s => (sl_value s, sl_alternatives s)) (ps_slots (rich_answer 0)) = [(SVCustom $"the living room", [])] /\
  map (fun s => (sl_value s, sl_alternatives s)) (ps_slots (rich_answer 2)) =
    [(SVCustom $"the living room", [SVCustom $"hall"; SVCustom $"cellar"])].
Proof.
  exact (conj rich_apart (conj rich_bounded (conj rich_eq (conj rich_answers_0 (conj rich_answers_2 rich_differ))))).
Qed.
