(** C97: parsers added to an engine. *)
From Coq Require Import String List NArith.
From Verif Require Import Base F32 M_Types M_Engine M_Features M_Fs M_Json M_Load S_Base S_Engine S_Load S_Made S_Append P_Append P_AppendLoad
  Demo Demo_Rules Demo_Prob Demo_Crf Demo_Load Demo_Home Demo_Made Demo_Declared Demo_Append.
Import ListNotations.
Local Open Scope nat_scope.

(** Parsers tried after those of the engine change nothing when the engine recognises an intent
    or fails. *)
Theorem C97_parse : forall x en o1 o2 o2' input w b slot_alternatives more,
  (forall res, parse_with_alternatives x o1 o2 en input w b 0 slot_alternatives = Ok res -> ir_name (ps_intent res) <> None) ->
  parse_with_alternatives x o1 o2' (followed_by en more) input w b 0 slot_alternatives =
  parse_with_alternatives x o1 o2 en input w b 0 slot_alternatives.
Proof. exact parse_appended. Qed.
Print Assumptions C97_parse.

(** When it recognises no intent, the answer is that of the new parsers alone. *)
Theorem C97_parse_else : forall x en o1 o2 o2' o2'' input w b slot_alternatives q more res,
  parse_with_alternatives x o1 o2 en input w b 0 slot_alternatives = Ok res -> ir_name (ps_intent res) = None ->
  parse_with_alternatives x o1 o2' (followed_by en (q :: more)) input w b 0 slot_alternatives =
  parse_with_alternatives x o1 o2'' (with_parsers en (q :: more)) input w b 0 slot_alternatives.
Proof. exact parse_appended_none. Qed.
Print Assumptions C97_parse_else.

(** Whatever the numbers of alternatives of the two calls, intent, confidence and slots stay. *)
Theorem C97_main_answer : forall x en o1 o2 o2' input w b n n' slot_alternatives more res res',
  parse_with_alternatives x o1 o2 en input w b n slot_alternatives = Ok res -> ir_name (ps_intent res) <> None ->
  parse_with_alternatives x o1 o2' (followed_by en more) input w b n' slot_alternatives = Ok res' ->
  ps_intent res' = ps_intent res /\ ps_slots res' = ps_slots res.
Proof. exact parse_appended_main. Qed.
Print Assumptions C97_main_answer.

(** A parser that recognises nothing in the text can be removed, unless it is the last one. *)
Theorem C97_silent : forall x en o1 o2 o2' input w b slot_alternatives pre q p post,
  (forall wl, exists s, finds_nothing q input wl s) ->
  parse_with_alternatives x o1 o2 (with_parsers en (pre ++ q :: p :: post)) input w b 0 slot_alternatives =
  parse_with_alternatives x o1 o2' (with_parsers en (pre ++ p :: post)) input w b 0 slot_alternatives.
Proof. exact parse_silent. Qed.
Print Assumptions C97_silent.

(** A parser in front of the others can change the answer. *)
Theorem C97_in_front_refuted :
  ~ (forall x o1 o2 en input w b salts q res, parse_with_alternatives x o1 o2 en input w b 0 salts = Ok res -> ir_name (ps_intent res) <> None ->
       parse_with_alternatives x o1 o2 (with_parsers en (q :: en_parsers en)) input w b 0 salts = Ok res).
Proof. exact front_decides. Qed.
Print Assumptions C97_in_front_refuted.

(** The same for slots. *)
Theorem C97_get_slots : forall x en input intent slot_alternatives more,
  get_slots_with_alternatives x en input intent slot_alternatives <> Ok [] ->
  get_slots_with_alternatives x (followed_by en more) input intent slot_alternatives =
  get_slots_with_alternatives x en input intent slot_alternatives.
Proof. exact slots_appended. Qed.
Print Assumptions C97_get_slots.

Theorem C97_get_slots_else : forall x en input intent slot_alternatives more,
  (forall p, In p (en_parsers en) -> ip_get_slots p input intent = Ok []) ->
  get_slots_with_alternatives x (followed_by en more) input intent slot_alternatives =
  get_slots_with_alternatives x (with_parsers en more) input intent slot_alternatives.
Proof. exact slots_appended_none. Qed.
Print Assumptions C97_get_slots_else.

(** In the list of intents nothing is lost and confidences only grow. *)
Theorem C97_get_intents : forall en ord ord' input more out out',
  get_intents ord en input = Ok out -> get_intents ord' (followed_by en more) input = Ok out' ->
  forall r, In r out -> fis_nan (ir_score r) = false ->
  exists r', In r' out' /\ ir_name r' = ir_name r /\ fle (ir_score r) (ir_score r') = true.
Proof. exact intents_appended. Qed.
Print Assumptions C97_get_intents.

(** But the failure of a new parser is the failure of the list. *)
Theorem C97_get_intents_failure : forall en ord ord' input q more out,
  get_intents ord en input = Ok out ->
  (forall e, ip_get_intents q input = Err e -> get_intents ord' (followed_by en (q :: more)) input = Err e) /\
  (ip_get_intents q input = Panic -> get_intents ord' (followed_by en (q :: more)) input = Panic).
Proof. exact intents_failing. Qed.
Print Assumptions C97_get_intents_failure.

(** Parsers are added by adding the names of their directories at the end of the list of the main
    document: the engine loaded then is the one loaded before, followed by as many parsers. *)
Theorem C97_loaded : forall x shape ngrams mx L fo uo f f' p,
  same_but_main p f f' -> loaders_local L ->
  (forall names j s, json_at L f (p ++ map CName names) j -> text_in s j -> plain s) ->
  (forall l, folder (ld_lang_name L l)) -> forall m names,
  file_says L fo f p $"nlu_engine.json" d_engine m ->
  file_says L fo f' p $"nlu_engine.json" d_engine (with_names m names) ->
  folder (em_builtin m) -> folder (em_custom m) -> (forall n, In n (em_parsers m) -> folder n) ->
  forall en en', from_path x shape ngrams mx L fo uo f p = Ok en -> from_path x shape ngrams mx L fo uo f' p = Ok en' ->
  exists more, length more = length names /\ en' = followed_by en more.
Proof. exact engine_grows. Qed.
Print Assumptions C97_loaded.

(** The demo engine is a directory with the rules alone, to which two parsers were added. *)
Example C97_loaded_case :
  same_but_main dir_e short_home home /\ loaders_local short_loader /\
  (forall names j s, json_at short_loader short_home (dir_e ++ map CName names) j -> text_in s j -> plain s) /\
  (forall l, folder (ld_lang_name short_loader l)) /\
  file_says short_loader home_orders short_home dir_e $"nlu_engine.json" d_engine (main_of short_home) /\
  file_says short_loader home_orders home dir_e $"nlu_engine.json" d_engine (with_names (main_of short_home) [$"table"; $"stats"]) /\
  (folder (em_builtin (main_of short_home)) /\ folder (em_custom (main_of short_home)) /\
   forall n, In n (em_parsers (main_of short_home)) -> folder n) /\
  load_growing short_home = Ok short_engine /\ load_growing home = Ok grown_engine.
Proof.
  exact (conj short_same (conj short_local (conj short_plain (conj short_lang (conj short_main (conj grown_main
    (conj short_folders (conj short_eq grown_eq)))))))).
Qed.

(** The rules of the demo engine understand one text and not the other; they find slots in the
    first; its intents can be listed with and without the two other parsers. *)
Example C97_case :
  intent_of rules_only kitchen = Some (Some $"lightOn") /\ intent_of rules_only bright = Some None /\
  get_slots_with_alternatives demo_ext rules_only kitchen $"lightOn" 0 <> Ok [] /\
  is_ok (get_intents id_order rules_only kitchen) = true /\
  is_ok (get_intents id_order (followed_by rules_only [home_parser 1; home_parser 2]) kitchen) = true /\
  ip_get_intents broken_parser kitchen = Err EOther.
Proof.
  exact (conj (proj1 rules_intents) (conj (proj2 rules_intents) (conj rules_slots
    (conj (proj1 rules_list) (conj (proj1 (proj2 rules_list)) broken_list))))).
Qed.
