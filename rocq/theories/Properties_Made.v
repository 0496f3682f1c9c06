(** Properties of the layout of an engine directory: C77, and C46 and C53 for engines on disk.
    [Print Assumptions] beneath each theorem lists what it rests on. *)
From Coq Require Import String List NArith ZArith Bool Arith.
From Verif Require Import Base F32 M_Types M_Utils M_Engine M_Det M_Lookup M_Feat M_Prob M_Features M_Filler M_Cache M_Res M_Fs M_Json M_Load
  M_Inject S_Base S_Utils S_Engine S_Det S_Rank S_Rules S_Load S_Match S_Inject S_Format S_Cache S_Answer S_Made
  P_Base P_Made Demo Demo_Prob Demo_Crf Demo_Load Demo_Home Demo_Inject Demo_Made.
Import ListNotations.
Local Open Scope string_scope.
Local Open Scope list_scope.
Local Open Scope nat_scope.

(** ** C77 *)
(** The engine that loads from a directory is the one its files describe, and every
    directory that describes an engine loads. *)
Theorem C77_layout : forall x shape ngrams mx L fo uo f p en,
  from_path x shape ngrams mx L fo uo f p = Ok en <-> engine_at x shape ngrams mx L fo uo f p en.
Proof. exact engine_iff. Qed.
Print Assumptions C77_layout.

(** The entity parsers come from the directories named in the model; both get their text in
    lower case. *)
Theorem C77_entity_parsers : forall x shape ngrams mx L fo uo f p en,
  from_path x shape ngrams mx L fo uo f p = Ok en ->
  exists m b cm l gaz, file_says L fo f p $"nlu_engine.json" d_engine m /\
    ld_builtin L f (pjoin p (em_builtin m)) = Ok b /\
    (forall s kinds cached n, rs_builtin (en_resources en) s kinds cached n = b (x_lower x s) kinds n) /\
    file_says L fo f (pjoin p (em_custom m)) $"metadata.json" (fun _ => d_custom_metadata) cm /\
    ld_lang L (cu_language cm) = Some l /\
    ld_gazetteer L f (pjoin (pjoin p (em_custom m)) (cu_directory cm)) = Ok gaz /\
    rs_custom (en_resources en) = custom_entities x l gaz.
Proof. exact entity_parsers. Qed.
Print Assumptions C77_entity_parsers.

(** A text that a rule based parser was taught for one intent is answered with this intent,
    for sure, when the parsers listed before it are rule based and were not taught the text. *)
Theorem C77_learnt : forall x shape ngrams mx L fo uo f p en m before name after r o1 o2 input w b wl n salts i slots out,
  from_path x shape ngrams mx L fo uo f p = Ok en -> externals_ok x L (en_resources en) input ->
  file_says L fo f p $"nlu_engine.json" d_engine m -> em_parsers m = before ++ name :: after ->
  get_intents_whitelist o1 en w b = Ok wl ->
  none_understands x L fo f p (en_resources en) input wl before ->
  rules_at L fo f (pjoin p name) r -> of_reasonable_size x (en_resources en) input r ->
  understood x L (en_resources en) input wl r i slots ->
  (forall j s, understood x L (en_resources en) input wl r j s -> j = i) ->
  parse_with_alternatives x o1 o2 en input w b n salts = Ok out -> ps_intent out = mkIR (Some i) f1.
Proof. exact learnt. Qed.
Print Assumptions C77_learnt.

(** An engine with rule based parsers only does not answer a text it was not taught. *)
Theorem C77_nothing_learnt : forall x shape ngrams mx L fo uo f p en m o1 o2 input w b wl n salts out,
  from_path x shape ngrams mx L fo uo f p = Ok en -> externals_ok x L (en_resources en) input ->
  file_says L fo f p $"nlu_engine.json" d_engine m -> em_parsers m <> [] ->
  get_intents_whitelist o1 en w b = Ok wl ->
  none_understands x L fo f p (en_resources en) input wl (em_parsers m) ->
  parse_with_alternatives x o1 o2 en input w b n salts = Ok out -> ps_intent out = mkIR None f1 /\ ps_slots out = [].
Proof. exact nothing_learnt. Qed.
Print Assumptions C77_nothing_learnt.

(** Its answers are always among what it was taught. *)
Theorem C77_answer_is_learnt : forall x shape ngrams mx L fo uo f p en m o1 o2 input w b wl n salts out i,
  from_path x shape ngrams mx L fo uo f p = Ok en -> externals_ok x L (en_resources en) input ->
  file_says L fo f p $"nlu_engine.json" d_engine m ->
  (forall name, In name (em_parsers m) ->
     exists r, rules_at L fo f (pjoin p name) r /\ of_reasonable_size x (en_resources en) input r) ->
  get_intents_whitelist o1 en w b = Ok wl ->
  parse_with_alternatives x o1 o2 en input w b n salts = Ok out -> ir_name (ps_intent out) = Some i ->
  exists name r slots, In name (em_parsers m) /\ rules_at L fo f (pjoin p name) r /\
    understood x L (en_resources en) input wl r i slots /\
    resolve_slots x en input slots salts = Ok (ps_slots out).
Proof. exact answer_learnt. Qed.
Print Assumptions C77_answer_is_learnt.

(** The demo engine lists three parsers; the text was taught to the second one. *)
Example C77_case :
  load_home = Ok home_engine /\ externals_ok demo_ext home_loader (en_resources home_engine) bright /\
  file_says home_loader home_orders home dir_e $"nlu_engine.json" d_engine home_model /\
  em_parsers home_model = [$"rules"] ++ $"table" :: [$"stats"] /\
  get_intents_whitelist id_order home_engine only_light None = Ok only_light /\
  none_understands demo_ext home_loader home_orders home dir_e (en_resources home_engine) bright only_light [$"rules"] /\
  rules_at home_loader home_orders home (pjoin dir_e $"table") (Table home_table) /\
  of_reasonable_size demo_ext (en_resources home_engine) bright (Table home_table) /\
  understood demo_ext home_loader (en_resources home_engine) bright only_light (Table home_table)
    $"lightOn" (pr_slots (home_answer 1 bright only_light)) /\
  (forall j s, understood demo_ext home_loader (en_resources home_engine) bright only_light (Table home_table) j s -> j = $"lightOn") /\
  exists res, parse_with_alternatives demo_ext id_order id_order home_engine bright only_light None 0 0 = Ok res /\
    map sl_raw_value (ps_slots res) = [$"Kitchen"].
Proof. exact made_case. Qed.

(** ** C53 *)
(** In a loaded engine, texts that are equal but for their case have the same entities. *)
Theorem C53_loaded : forall x shape ngrams mx L fo uo f p en s s',
  from_path x shape ngrams mx L fo uo f p = Ok en -> x_lower x s = x_lower x s' ->
  (forall kinds cached n, rs_builtin (en_resources en) s kinds cached n = rs_builtin (en_resources en) s' kinds cached n) /\
  (forall kinds n, rs_custom (en_resources en) s kinds n = rs_custom (en_resources en) s' kinds n).
Proof. exact loaded_case_ignored. Qed.
Print Assumptions C53_loaded.

(** ** C46 *)
(** False: injection refuses an engine of another version.  This one does not load, and is
    changed as if it did. *)
Theorem C46_other_version_refused_refuted :
  from_path demo_ext demo_shape no_ngrams demo_math old_loader orders0 units0 inj_tree dir_e = Err (EWrongModelVersion $"0.19.0" $"0.20.0") /\
  inject demo_ext old_loader orders0 units0 demo_gaz id_order id_order id_order (request dir_e [($"room", $"cellar")] false None) inj_tree =
    inject demo_ext inj_loader orders0 units0 demo_gaz id_order id_order id_order (request dir_e [($"room", $"cellar")] false None) inj_tree /\
  snd (inject demo_ext old_loader orders0 units0 demo_gaz id_order id_order id_order (request dir_e [($"room", $"cellar")] false None) inj_tree) = Ok tt.
Proof. exact old_version_injected. Qed.
Print Assumptions C46_other_version_refused_refuted.
