(** Properties of the confidences and of the list of intents of a loaded engine: C87 and C88.
    [Print Assumptions] beneath each theorem lists what it rests on. *)
From Coq Require Import String List NArith ZArith Bool Arith.
From Verif Require Import Base F32 M_Types M_Utils M_Engine M_Det M_Lookup M_Feat M_Prob M_Features M_Filler M_Cache M_Res M_Fs M_Json M_Load
  S_Base S_Utils S_Engine S_Det S_Rank S_Rules S_Prob S_Load S_Match S_Made S_Seeds S_Narrow S_Intents S_Linear
  P_Intents Demo Demo_Prob Demo_Crf Demo_Load Demo_Home Demo_Made Demo_Seeds Demo_Narrow Demo_Intents.
Import ListNotations.
Local Open Scope string_scope.
Local Open Scope list_scope.
Local Open Scope nat_scope.

(** ** C87 *)
(** The confidence of the intent that parse answers, and those of its alternatives, are between 0 and 1. *)
Theorem C87_parse : forall x shape ngrams mx L fo uo f p en m input,
  from_path x shape ngrams mx L fo uo f p = Ok en -> file_says L fo f p $"nlu_engine.json" d_engine m ->
  externals_ok x L (en_resources en) input -> sizes_ok x L fo f p m (en_resources en) input ->
  exp_ok mx -> scores_are_numbers x ngrams mx L fo uo f p m (en_resources en) input ->
  forall o1 o2 w b k n res, parse_with_alternatives x o1 o2 en input w b k n = Ok res ->
  in_unit (ir_score (ps_intent res)) /\ forall a, In a (ps_alternatives res) -> in_unit (ir_score (al_intent a)).
Proof. exact parse_unit. Qed.
Print Assumptions C87_parse.

(** So are the confidences of the list of intents. *)
Theorem C87_intents : forall x shape ngrams mx L fo uo f p en m input,
  from_path x shape ngrams mx L fo uo f p = Ok en -> file_says L fo f p $"nlu_engine.json" d_engine m ->
  externals_ok x L (en_resources en) input -> sizes_ok x L fo f p m (en_resources en) input ->
  exp_ok mx -> scores_are_numbers x ngrams mx L fo uo f p m (en_resources en) input ->
  forall o l e, get_intents o en input = Ok l -> In e l -> in_unit (ir_score e).
Proof. exact intents_unit. Qed.
Print Assumptions C87_intents.

(** Engines whose parsers are all rule based answer an intent with a confidence above one half, and
    no intent with the confidence 1. *)
Theorem C87_rules_alone : forall x shape ngrams mx L fo uo f p en m input,
  from_path x shape ngrams mx L fo uo f p = Ok en -> file_says L fo f p $"nlu_engine.json" d_engine m ->
  externals_ok x L (en_resources en) input -> sizes_ok x L fo f p m (en_resources en) input ->
  forall o1 o2 w b k n res,
  em_parsers m <> [] -> (forall name, In name (em_parsers m) -> exists r, rules_at L fo f (pjoin p name) r) ->
  parse_with_alternatives x o1 o2 en input w b k n = Ok res ->
  match ir_name (ps_intent res) with
  | Some _ => flt fhalf (ir_score (ps_intent res)) = true /\ fle (ir_score (ps_intent res)) f1 = true
  | None => ir_score (ps_intent res) = f1
  end.
Proof. exact parse_rules. Qed.
Print Assumptions C87_rules_alone.

(** When the linear score of a class is not a number, the list of intents is not answered. *)
Theorem C87_not_a_number : forall x shape ngrams mx L fo uo f p en m input name c t lr fs j, exp_nan mx ->
  from_path x shape ngrams mx L fo uo f p = Ok en -> file_says L fo f p $"nlu_engine.json" d_engine m ->
  In name (em_parsers m) -> unit_at L fo f (pjoin p name) UProbabilistic ->
  classifier_at x ngrams L fo uo f (en_resources en) (pjoin (pjoin p name) $"intent_classifier") c ->
  scores_text c input -> cl_featurizer c = Some t -> cl_logreg c = Some lr -> t input = Ok fs ->
  lr_classes lr <> 1 -> j < lr_classes lr -> j < length (cl_intents c) -> fis_nan (linear mx lr fs j) = true ->
  forall o l, get_intents o en input <> Ok l.
Proof. exact intents_nan. Qed.
Print Assumptions C87_not_a_number.

Example C87_case :
  load_home = Ok home_engine /\ file_says home_loader home_orders home dir_e $"nlu_engine.json" d_engine home_model /\
  externals_ok demo_ext home_loader (en_resources home_engine) bright /\
  sizes_ok demo_ext home_loader home_orders home dir_e home_model (en_resources home_engine) bright /\
  exp_ok demo_math /\
  scores_are_numbers demo_ext no_ngrams demo_math home_loader home_orders (fun _ _ => id_order) home dir_e home_model (en_resources home_engine) bright /\
  get_intents id_order home_engine bright = Ok (listed home_engine bright) /\
  map (fun r => (feq (ir_score r) f1, feq (ir_score r) f0)) (listed home_engine bright) = [(true, false); (false, false); (false, false)].
Proof.
  split; [exact home_eq|]. split; [exact home_model_at|]. split; [exact bright_externals|]. split; [exact bright_sizes|].
  split; [exact demo_exp_ok|]. split; [exact bright_numbers|]. split; [exact listed_ok|exact listed_scores].
Qed.

Example C87_rules_alone_case :
  em_parsers tie_model <> [] /\
  (forall name, In name (em_parsers tie_model) -> exists r, rules_at tie_loader home_orders tie_tree (pjoin dir_e name) r) /\
  parse_with_alternatives demo_ext id_order id_order (tie_engine id_order) tie_text None None 0 0 = Ok (tie_answer id_order) /\
  ir_name (ps_intent (tie_answer id_order)) = Some $"six" /\
  flt fhalf (ir_score (ps_intent (tie_answer id_order))) = true /\ flt (ir_score (ps_intent (tie_answer id_order))) f1 = true.
Proof.
  split; [exact tie_some|]. split; [exact tie_only|]. split; [exact (tie_answers id_order (or_introl eq_refl))|].
  split; [exact (f_equal fst tie_names)|]. split; vm_compute; reflexivity.
Qed.

(** A coefficient that 32 bit numbers cannot hold. *)
Example C87_not_a_number_case :
  exp_nan nan_math /\ load_nan = Ok nan_engine /\ file_says nan_loader home_orders home dir_e $"nlu_engine.json" d_engine home_model /\
  In $"stats" (em_parsers home_model) /\ unit_at nan_loader home_orders home (pjoin dir_e $"stats") UProbabilistic /\
  classifier_at demo_ext no_ngrams nan_loader home_orders home_orders home (en_resources nan_engine)
    (pjoin (pjoin dir_e $"stats") $"intent_classifier") nan_classifier /\
  scores_text nan_classifier nan_text /\
  (exists t lr fs, cl_featurizer nan_classifier = Some t /\ cl_logreg nan_classifier = Some lr /\ t nan_text = Ok fs /\
     lr_classes lr <> 1 /\ 0 < lr_classes lr /\ fis_nan (linear nan_math lr fs 0) = true) /\
  match get_intents id_order nan_engine nan_text with Panic => true | _ => false end = true.
Proof.
  split; [exact nan_exp|]. split; [exact nan_eq|]. split; [exact nan_model_at|]. split; [exact nan_stats|]. split; [exact nan_stats_at|].
  split; [exact nan_classifier_at|]. split; [exact nan_scores_text|]. split; [exact nan_scores|exact nan_panics].
Qed.

(** ** C88 *)
(** What get_intents lists is listed by the files of a parser. *)
Theorem C88_only_listed : forall x shape ngrams mx L fo uo f p en m input,
  from_path x shape ngrams mx L fo uo f p = Ok en -> file_says L fo f p $"nlu_engine.json" d_engine m ->
  forall o l e, get_intents o en input = Ok l -> In e l ->
  exists name, In name (em_parsers m) /\ parser_lists L fo f (pjoin p name) (ir_name e).
Proof. exact intents_listed. Qed.
Print Assumptions C88_only_listed.

(** The intents of the rules in the first directory are all listed, and so is the absence of intent. *)
Theorem C88_first_parser : forall x shape ngrams mx L fo uo f p en m input,
  from_path x shape ngrams mx L fo uo f p = Ok en -> file_says L fo f p $"nlu_engine.json" d_engine m ->
  externals_ok x L (en_resources en) input -> sizes_ok x L fo f p m (en_resources en) input ->
  forall o l name rest r i, get_intents o en input = Ok l -> em_parsers m = name :: rest -> rules_at L fo f (pjoin p name) r ->
  i = None \/ (exists j, i = Some j /\ lists_intent r j) -> exists e, In e l /\ ir_name e = i.
Proof. exact intents_first. Qed.
Print Assumptions C88_first_parser.

(** An intent that some rules were taught the text for is listed with a positive confidence, which
    is 1 when these rules were taught the text for this intent only. *)
Theorem C88_understood : forall x shape ngrams mx L fo uo f p en m input,
  from_path x shape ngrams mx L fo uo f p = Ok en -> file_says L fo f p $"nlu_engine.json" d_engine m ->
  externals_ok x L (en_resources en) input -> sizes_ok x L fo f p m (en_resources en) input ->
  exp_ok mx -> scores_are_numbers x ngrams mx L fo uo f p m (en_resources en) input ->
  forall o l name r i s, get_intents o en input = Ok l -> In name (em_parsers m) -> rules_at L fo f (pjoin p name) r ->
  understood x L (en_resources en) input None r i s ->
  exists v, In (mkIR (Some i) v) l /\ flt f0 v = true /\
    ((forall j s', understood x L (en_resources en) input None r j s' -> j = i) -> v = f1).
Proof. exact intents_known. Qed.
Print Assumptions C88_understood.

(** A positive confidence has a cause: rules that were taught the text for the intent, or a
    classifier that lists it. *)
Theorem C88_positive : forall x shape ngrams mx L fo uo f p en m input,
  from_path x shape ngrams mx L fo uo f p = Ok en -> file_says L fo f p $"nlu_engine.json" d_engine m ->
  externals_ok x L (en_resources en) input -> sizes_ok x L fo f p m (en_resources en) input ->
  exp_ok mx -> scores_are_numbers x ngrams mx L fo uo f p m (en_resources en) input ->
  forall o l e, get_intents o en input = Ok l -> In e l -> flt f0 (ir_score e) = true ->
  exists name, In name (em_parsers m) /\
    ((exists r i s, rules_at L fo f (pjoin p name) r /\ ir_name e = Some i /\ understood x L (en_resources en) input None r i s) \/
     (exists cm, classifier_says L fo f (pjoin p name) cm /\
        (In (ir_name e) (clm_intents cm) \/ (clm_intents cm = [] /\ ir_name e = None)))).
Proof. exact intents_positive. Qed.
Print Assumptions C88_positive.

(** The table of the engine, its second parser, was taught the text for one intent. *)
Example C88_case :
  get_intents id_order home_engine bright = Ok (listed home_engine bright) /\
  map ir_name (listed home_engine bright) = [Some $"lightOn"; Some $"setTemp"; None] /\
  em_parsers home_model = [$"rules"; $"table"; $"stats"] /\
  rules_at home_loader home_orders home (pjoin dir_e $"rules") (Patterns home_rules) /\ lists_intent (Patterns home_rules) $"setTemp" /\
  rules_at home_loader home_orders home (pjoin dir_e $"table") (Table home_table) /\
  understood demo_ext home_loader (en_resources home_engine) bright None (Table home_table) $"lightOn" bright_slots /\
  (forall j s, understood demo_ext home_loader (en_resources home_engine) bright None (Table home_table) j s -> j = $"lightOn").
Proof.
  split; [exact listed_ok|]. split; [exact listed_names|]. split; [vm_compute; reflexivity|]. split; [exact home_rules_at|].
  split; [vm_compute; auto|]. split; [exact home_table_at|]. split; [exact bright_known|exact bright_certain].
Qed.
