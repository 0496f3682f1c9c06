(** Properties of the first intent that get_intents lists, compared with the answer of parse: C89.
    [Print Assumptions] beneath each theorem lists what it rests on. *)
From Coq Require Import String List NArith ZArith Bool Arith.
From Verif Require Import Base F32 M_Types M_Utils M_Engine M_Det M_Lookup M_Feat M_Prob M_Features M_Filler M_Cache M_Res M_Fs M_Json M_Load
  S_Base S_Utils S_Engine S_Det S_Rank S_Rules S_Prob S_Load S_Match S_Made S_Seeds S_Narrow S_Intents S_Best
  P_Best Demo Demo_Prob Demo_Crf Demo_Load Demo_Home Demo_Made Demo_Seeds Demo_Narrow Demo_Intents Demo_Best.
Import ListNotations.
Local Open Scope string_scope.
Local Open Scope list_scope.
Local Open Scope nat_scope.

(** ** C89 *)
(** The intent that parse answers is listed by get_intents, with at least the same confidence. *)
Theorem C89_listed : forall x shape ngrams mx L fo uo f p en m input,
  from_path x shape ngrams mx L fo uo f p = Ok en -> file_says L fo f p $"nlu_engine.json" d_engine m ->
  externals_ok x L (en_resources en) input -> sizes_ok x L fo f p m (en_resources en) input ->
  classes_once L fo f p m -> exp_ok mx -> scores_are_numbers x ngrams mx L fo uo f p m (en_resources en) input ->
  forall o l o1 o2 k n res i,
  get_intents o en input = Ok l -> parse_with_alternatives x o1 o2 en input None None k n = Ok res ->
  ir_name (ps_intent res) = Some i -> flt f0 (ir_score (ps_intent res)) = true ->
  exists e, In e l /\ ir_name e = Some i /\ fle (ir_score (ps_intent res)) (ir_score e) = true.
Proof. exact answer_listed. Qed.
Print Assumptions C89_listed.

(** An intent that parse answers with the confidence 1 is the first one of get_intents, unless
    another intent has the confidence 1 as well. *)
Theorem C89_certain : forall x shape ngrams mx L fo uo f p en m input,
  from_path x shape ngrams mx L fo uo f p = Ok en -> file_says L fo f p $"nlu_engine.json" d_engine m ->
  externals_ok x L (en_resources en) input -> sizes_ok x L fo f p m (en_resources en) input ->
  classes_once L fo f p m -> exp_ok mx -> scores_are_numbers x ngrams mx L fo uo f p m (en_resources en) input ->
  forall o l o1 o2 k n res i,
  get_intents o en input = Ok l -> parse_with_alternatives x o1 o2 en input None None k n = Ok res ->
  ps_intent res = mkIR (Some i) f1 -> (forall e, In e l -> ir_score e = f1 -> ir_name e = Some i) ->
  exists rest, l = mkIR (Some i) f1 :: rest.
Proof. exact certain_first. Qed.
Print Assumptions C89_certain.

(** Then the alternatives do not repeat it. *)
Theorem C89_alternatives : forall x shape ngrams mx L fo uo f p en m input,
  from_path x shape ngrams mx L fo uo f p = Ok en -> file_says L fo f p $"nlu_engine.json" d_engine m ->
  externals_ok x L (en_resources en) input -> sizes_ok x L fo f p m (en_resources en) input ->
  classes_once L fo f p m -> exp_ok mx -> scores_are_numbers x ngrams mx L fo uo f p m (en_resources en) input ->
  forall o1 o2 k n res i,
  parse_with_alternatives x o1 o2 en input None None k n = Ok res ->
  ps_intent res = mkIR (Some i) f1 ->
  (forall l e, get_intents o2 en input = Ok l -> In e l -> ir_score e = f1 -> ir_name e = Some i) ->
  forall a, In a (ps_alternatives res) -> ir_name (al_intent a) <> Some i.
Proof. exact certain_alternatives. Qed.
Print Assumptions C89_alternatives.

(** In an engine with a single parser that is rule based, an answered intent is the first one of
    get_intents, with the same confidence. *)
Theorem C89_one_rules : forall x shape ngrams mx L fo uo f p en m input,
  from_path x shape ngrams mx L fo uo f p = Ok en -> file_says L fo f p $"nlu_engine.json" d_engine m ->
  externals_ok x L (en_resources en) input -> sizes_ok x L fo f p m (en_resources en) input ->
  forall name r o l o1 o2 k n res i,
  em_parsers m = [name] -> rules_at L fo f (pjoin p name) r ->
  get_intents o en input = Ok l -> parse_with_alternatives x o1 o2 en input None None k n = Ok res ->
  ir_name (ps_intent res) = Some i -> exists rest, l = ps_intent res :: rest.
Proof. exact one_rules. Qed.
Print Assumptions C89_one_rules.

(** So it is in an engine with a single parser that has a classifier, unless another intent has
    the same confidence. *)
Theorem C89_one_classifier : forall x shape ngrams mx L fo uo f p en m input,
  from_path x shape ngrams mx L fo uo f p = Ok en -> file_says L fo f p $"nlu_engine.json" d_engine m -> classes_once L fo f p m ->
  forall name o l o1 o2 k n res i,
  em_parsers m = [name] -> unit_at L fo f (pjoin p name) UProbabilistic ->
  get_intents o en input = Ok l -> parse_with_alternatives x o1 o2 en input None None k n = Ok res ->
  ir_name (ps_intent res) = Some i ->
  (forall e, In e l -> feq (ir_score e) (ir_score (ps_intent res)) = true -> ir_name e = Some i) ->
  exists rest, l = ps_intent res :: rest.
Proof. exact one_classifier. Qed.
Print Assumptions C89_one_classifier.

(** When the parsers are all rule based and none knows the text, parse answers no intent with the
    confidence 1, but get_intents gives all the intents, and the absence of intent, the confidence 0. *)
Theorem C89_nothing : forall x shape ngrams mx L fo uo f p en m input,
  from_path x shape ngrams mx L fo uo f p = Ok en -> file_says L fo f p $"nlu_engine.json" d_engine m ->
  externals_ok x L (en_resources en) input -> sizes_ok x L fo f p m (en_resources en) input ->
  forall o l o1 o2 k n res,
  em_parsers m <> [] ->
  (forall name, In name (em_parsers m) -> exists r, rules_at L fo f (pjoin p name) r /\
     forall i s, ~ understood x L (en_resources en) input None r i s) ->
  get_intents o en input = Ok l -> parse_with_alternatives x o1 o2 en input None None k n = Ok res ->
  ps_intent res = mkIR None f1 /\ forall e, In e l -> ir_score e = f0.
Proof. exact nothing_both. Qed.
Print Assumptions C89_nothing.

(** In an engine with several parsers the answer of parse need not be the first intent of
    get_intents: a later parser, which parse does not ask, can be more confident of another intent. *)
Theorem C89_first_refuted : exists x shape ngrams mx L fo uo f p en input o res e rest,
  from_path x shape ngrams mx L fo uo f p = Ok en /\ externals_ok x L (en_resources en) input /\
  parse_with_alternatives x o o en input None None 0 0 = Ok res /\ get_intents o en input = Ok (e :: rest) /\
  ir_name (ps_intent res) = Some $"six" /\ ir_name e = Some $"many" /\ flt (ir_score (ps_intent res)) (ir_score e) = true.
Proof. exact two_differ. Qed.
Print Assumptions C89_first_refuted.

(** Three parsers; the second one, a table, knows the text. *)
Example C89_case :
  load_home = Ok home_engine /\ file_says home_loader home_orders home dir_e $"nlu_engine.json" d_engine home_model /\
  externals_ok demo_ext home_loader (en_resources home_engine) bright /\
  sizes_ok demo_ext home_loader home_orders home dir_e home_model (en_resources home_engine) bright /\
  classes_once home_loader home_orders home dir_e home_model /\ exp_ok demo_math /\
  scores_are_numbers demo_ext no_ngrams demo_math home_loader home_orders (fun _ _ => id_order) home dir_e home_model (en_resources home_engine) bright /\
  get_intents id_order home_engine bright = Ok (listed home_engine bright) /\
  parse_with_alternatives demo_ext id_order id_order home_engine bright None None 3 0 = Ok bright_all /\
  ps_intent bright_all = mkIR (Some $"lightOn") f1 /\
  (forall e, In e (listed home_engine bright) -> ir_score e = f1 -> ir_name e = Some $"lightOn") /\
  map (fun a => ir_name (al_intent a)) (ps_alternatives bright_all) = [Some $"setTemp"; None].
Proof.
  split; [exact home_eq|]. split; [exact home_model_at|]. split; [exact bright_externals|]. split; [exact bright_sizes|].
  split; [exact home_once|]. split; [exact demo_exp_ok|]. split; [exact bright_numbers|]. split; [exact listed_ok|].
  split; [exact bright_all_ok|]. split; [exact bright_all_certain|]. split; [exact bright_sole|exact bright_others].
Qed.

(** An ambiguous text: the confidence of the answer is below 1. *)
Example C89_one_rules_case :
  em_parsers tie_model = [$"rules"] /\ rules_at tie_loader home_orders tie_tree (pjoin dir_e $"rules") (Patterns tie_rules) /\
  externals_ok demo_ext tie_loader (en_resources (tie_engine id_order)) tie_text /\
  parse_with_alternatives demo_ext id_order id_order (tie_engine id_order) tie_text None None 0 0 = Ok (tie_answer id_order) /\
  ir_name (ps_intent (tie_answer id_order)) = Some $"six" /\ flt (ir_score (ps_intent (tie_answer id_order))) f1 = true /\
  map ir_name (listed (tie_engine id_order) tie_text) = [Some $"six"; Some $"seven"; Some $"many"; None].
Proof.
  split; [vm_compute; reflexivity|]. split; [exact tie_rules_at|]. split; [exact tie_externals|].
  split; [exact (tie_answers id_order (or_introl eq_refl))|]. split; [exact (f_equal fst tie_names)|]. split; vm_compute; reflexivity.
Qed.

Example C89_one_classifier_case :
  load_stats = Ok stats_engine /\ file_says stats_loader home_orders home dir_e $"nlu_engine.json" d_engine stats_model /\
  classes_once stats_loader home_orders home dir_e stats_model /\
  em_parsers stats_model = [$"stats"] /\ unit_at stats_loader home_orders home (pjoin dir_e $"stats") UProbabilistic /\
  get_intents id_order stats_engine turn_text = Ok (listed stats_engine turn_text) /\
  parse_with_alternatives demo_ext id_order id_order stats_engine turn_text None None 0 0 = Ok stats_answer /\
  ir_name (ps_intent stats_answer) = Some $"lightOn" /\
  (forall e, In e (listed stats_engine turn_text) -> feq (ir_score e) (ir_score (ps_intent stats_answer)) = true -> ir_name e = Some $"lightOn").
Proof.
  split; [exact stats_eq|]. split; [exact stats_model_at|]. split; [exact stats_once|]. split; [vm_compute; reflexivity|].
  split; [exact stats_at|]. split; [exact stats_listed|]. split; [exact stats_answers|]. split; [exact stats_name|exact stats_sole].
Qed.

Example C89_nothing_case :
  externals_ok demo_ext tie_loader (en_resources b_engine) b_text /\ em_parsers tie_model = [$"rules"] /\
  rules_at tie_loader home_orders tie_tree (pjoin dir_e $"rules") (Patterns tie_rules) /\
  (forall i s, ~ understood demo_ext tie_loader (en_resources b_engine) b_text None (Patterns tie_rules) i s) /\
  map (fun e => (ir_name e, feq (ir_score e) f0)) (listed b_engine b_text) =
    [(Some $"six", true); (Some $"seven", true); (Some $"many", true); (None, true)].
Proof.
  split; [exact b_externals|]. split; [vm_compute; reflexivity|]. split; [exact tie_rules_at|]. split; [exact (b_nothing None)|].
  vm_compute. reflexivity.
Qed.
