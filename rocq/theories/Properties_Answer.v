(** Properties of the slots that an engine loaded from files returns: C65, C66, C67. *)
From Coq Require Import String List NArith ZArith Bool Arith Lia.
From Verif Require Import Base F32 M_Types M_Engine M_Crf M_Filler M_Cache M_Prob M_Fs M_Json M_Load
  S_Base S_Utils S_Det S_Engine S_Filler S_Cache S_Answer P_Answer P_Demo Demo Demo_Crf Demo_Prob Demo_Load Demo_Home.
Import ListNotations.
Local Open Scope nat_scope.

(** ** C65 *)
(** Whatever the parsers of the engine are, every slot of an answer quotes the text, and
    the slots of one intent are in order and do not overlap. *)
Theorem C65_parse_quotes : forall x shape ngrams mx L fo uo o1 o2 f p en input white black n salts res slots,
  tokenizer_ok x -> taggers_trained x shape L fo f ->
  from_path x shape ngrams mx L fo uo f p = Ok en ->
  parse_with_alternatives x o1 o2 en input white black n salts = Ok res -> answered_slots res slots ->
  (forall s, In s slots -> quotes input s) /\ ordered_disjoint (map sl_range slots).
Proof. exact loaded_answers_quote. Qed.
Print Assumptions C65_parse_quotes.

Theorem C65_get_slots_quotes : forall x shape ngrams mx L fo uo f p en input intent salts slots,
  tokenizer_ok x -> taggers_trained x shape L fo f ->
  from_path x shape ngrams mx L fo uo f p = Ok en ->
  get_slots_with_alternatives x en input intent salts = Ok slots ->
  (forall s, In s slots -> quotes input s) /\ ordered_disjoint (map sl_range slots).
Proof. exact loaded_slots_quote. Qed.
Print Assumptions C65_get_slots_quotes.

(** An engine with three parsers; each of the texts is understood by another one. *)
Example C65_case :
  tokenizer_ok demo_ext /\ taggers_trained demo_ext demo_shape home_loader (fun _ _ => id_order) home /\
  load_home = Ok home_engine /\
  parse_with_alternatives demo_ext id_order id_order home_engine $"Turn on the  LIVING   Room now" None None 2 0 =
    Ok (home_parse "Turn on the  LIVING   Room now" 2) /\
  summary (home_parse "light on in the KITCHEN" 0) = (Some $"lightOn", [($"KITCHEN", (16, 23))]) /\
  summary (home_parse "please brighten  the  Kitchen" 0) = (Some $"lightOn", [($"Kitchen", (22, 29))]) /\
  summary (home_parse "Turn on the  LIVING   Room now" 2) = (Some $"lightOn", [($"LIVING   Room", (13, 26))]) /\
  summaries (home_parse "Turn on the  LIVING   Room now" 2) = [(Some $"setTemp", []); (None, [])].
Proof.
  exact (conj demo_tokenizer_ok (conj (home_trained _ _) (conj home_eq (conj home_parse_ok home_answers)))).
Qed.

(** ** C66 *)
(** The custom entities of a loaded engine are found by a gazetteer parser, in the words of
    the lower-cased text. *)
Theorem C66_loaded : forall x shape ngrams mx L fo uo f p en,
  from_path x shape ngrams mx L fo uo f p = Ok en ->
  exists l d gaz, ld_gazetteer L f d = Ok gaz /\ rs_custom (en_resources en) = custom_entities x l gaz.
Proof. exact loaded_custom. Qed.
Print Assumptions C66_loaded.

Theorem C66_builtin_quotes : forall x en input intent name salts s,
  extract_slot_with_alternatives x en input intent name salts = Ok (Some s) -> ~ custom_slot en s -> quotes input s.
Proof. exact builtin_slot_quotes. Qed.
Print Assumptions C66_builtin_quotes.

(** A custom slot is the whole text, or a part of the analysed text together with the range
    of the text that this part comes from. *)
Theorem C66_custom : forall x en l gaz input intent name salts s,
  rs_custom (en_resources en) = custom_entities x l gaz -> gazetteer_quotes gaz ->
  tokens_ok (x_lower x input) (x_tokenize x l (x_lower x input)) -> (Z.of_nat (length (x_lower x input)) < 2 ^ 29)%Z ->
  extract_slot_with_alternatives x en input intent name salts = Ok (Some s) -> custom_slot en s ->
  (sl_raw_value s = input /\ sl_range s = (0, length input)) \/
  exists r, wf_range (length (analysed x l input)) r /\ sl_raw_value s = substring (analysed x l input) r /\
    forall a oa ta b ob tb, joined_at (x_tokenize x l (x_lower x input)) (rstart r) a oa ta ->
      joined_at (x_tokenize x l (x_lower x input)) (rend r - 1) b ob tb ->
      sl_range s = (rstart (tk_char_range ta) + oa, rstart (tk_char_range tb) + ob + 1).
Proof. exact custom_slot_raw. Qed.
Print Assumptions C66_custom.

(** For texts in lower case with single blanks the slot quotes the text. *)
Theorem C66_custom_plain : forall x en l gaz input intent name salts s,
  rs_custom (en_resources en) = custom_entities x l gaz -> gazetteer_quotes gaz ->
  tokens_ok input (x_tokenize x l input) -> (Z.of_nat (length input) < 2 ^ 29)%Z -> plain_text x l input ->
  extract_slot_with_alternatives x en input intent name salts = Ok (Some s) -> custom_slot en s -> quotes input s.
Proof. exact custom_slot_plain. Qed.
Print Assumptions C66_custom_plain.

(** In general it does not. *)
Theorem C66_custom_quotes_refuted : exists x en l gaz input intent name s,
  rs_custom (en_resources en) = custom_entities x l gaz /\ gazetteer_quotes gaz /\
  extract_slot_with_alternatives x en input intent name 0 = Ok (Some s) /\
  sl_raw_value s = $"living room" /\ substring input (sl_range s) = $"Living   ROOM".
Proof. exact custom_not_quoted. Qed.
Print Assumptions C66_custom_quotes_refuted.

Example C66_case :
  rs_custom (en_resources home_engine) = custom_entities demo_ext EN home_gaz /\ gazetteer_quotes home_gaz /\
  plain_text demo_ext EN $"in my living room" /\ custom_slot home_engine (found_slot "in my  Living   ROOM") /\
  sl_raw_value (found_slot "in my living room") = $"living room" /\
  sl_range (found_slot "in my living room") = (6, 17).
Proof.
  exact (conj home_custom (conj home_gaz_quotes (conj plain_case (conj home_room (conj eq_refl eq_refl))))).
Qed.

(** ** C67 *)
(** A custom slot that none of the entities of the text covers exactly is analysed alone.
    For a slot in lower case with single blanks, the last match gives the value if it covers
    the slot; otherwise the slot keeps its own text or is dropped. *)
Theorem C67_whole_slot : forall x l gaz slot extensible entities alts before e,
  gazetteer_quotes gaz -> tokens_ok (is_value slot) (x_tokenize x l (is_value slot)) ->
  (Z.of_nat (length (is_value slot)) < 2 ^ 29)%Z -> plain_text x l (is_value slot) ->
  (forall c, In c entities -> ~ custom_at slot c) ->
  custom_entities x l gaz (is_value slot) (Some [is_entity slot]) alts = Ok (before ++ [e]) ->
  (ce_range e = (0, length (is_value slot)) ->
     resolve_custom_slot slot extensible entities (custom_entities x l gaz) alts =
       Ok (Some (with_value slot (SVCustom (ce_resolved e)) (map SVCustom (ce_alternatives e))))) /\
  (ce_range e <> (0, length (is_value slot)) ->
     resolve_custom_slot slot extensible entities (custom_entities x l gaz) alts =
       Ok (if extensible then Some (with_value slot (SVCustom (is_value slot)) []) else None)).
Proof. exact whole_slot. Qed.
Print Assumptions C67_whole_slot.

(** With other blanks a match that covers the slot is refused. *)
Theorem C67_any_blanks_refuted :
  exists e, custom_entities demo_ext EN home_gaz (is_value spaced_slot) (Some [$"room"]) 0 = Ok [e] /\
    ce_range e = (0, length (is_value spaced_slot)) /\ ce_value e = phrase /\
    resolve_custom_slot spaced_slot false [] (custom_entities demo_ext EN home_gaz) 0 = Ok None.
Proof. exact whole_refused. Qed.
Print Assumptions C67_any_blanks_refuted.

Example C67_case :
  gazetteer_quotes home_gaz /\ plain_text demo_ext EN phrase /\
  resolve_custom_slot (mkIS phrase (3, 14) $"room" $"room") false [] (custom_entities demo_ext EN home_gaz) 0 =
    Ok (Some (with_value (mkIS phrase (3, 14) $"room" $"room") (SVCustom $"the living room") [])).
Proof. exact (conj home_gaz_quotes (conj plain_slot eq_refl)). Qed.
