(** Properties of an engine directory loaded by several processes: C82. Each process has its own
    hash seeds: [fo] and [uo] are the iteration orders of the hash tables of one process, [fo']
    and [uo'] those of another.
    [Print Assumptions] beneath each theorem lists what it rests on. *)
From Coq Require Import String List NArith ZArith Bool Arith Permutation.
From Verif Require Import Base F32 M_Types M_Utils M_Engine M_Det M_Lookup M_Feat M_Prob M_Features M_Filler M_Cache M_Res M_Fs M_Json M_Load
  S_Base S_Utils S_Engine S_Det S_Rank S_Rules S_Load S_Match S_Answer S_Made S_Seeds
  P_Base P_SeedsAll Demo Demo_Prob Demo_Crf Demo_Load Demo_Home Demo_Made Demo_Seeds.
Import ListNotations.
Local Open Scope string_scope.
Local Open Scope list_scope.
Local Open Scope nat_scope.

(** ** C82 *)
(** Whether a directory loads does not depend on the hash seeds. *)
Theorem C82_loading : forall x shape ngrams mx L fo fo' uo uo' f p, pairs_once L f ->
  (exists en, from_path x shape ngrams mx L fo uo f p = Ok en) <->
  (exists en', from_path x shape ngrams mx L fo' uo' f p = Ok en').
Proof. exact both_load. Qed.
Print Assumptions C82_loading.

(** The answer to a text that no rule based parser was taught for more than two allowed intents
    does not depend on them. *)
Theorem C82_parse : forall x shape ngrams mx L fo fo' uo uo' f p, pairs_once L f ->
  forall m en en' input, filters_are_sets L ->
  from_path x shape ngrams mx L fo uo f p = Ok en -> from_path x shape ngrams mx L fo' uo' f p = Ok en' ->
  file_says L fo f p $"nlu_engine.json" d_engine m ->
  externals_ok x L (en_resources en) input -> sizes_ok x L fo f p m (en_resources en) input ->
  forall o1 o2 o1' o2' w b n r,
  (forall wl, get_intents_whitelist o1 en w b = Ok wl -> hardly_ambiguous x L fo f p m (en_resources en) input wl) ->
  parse_with_alternatives x o1 o2 en input w b 0 n = Ok r <-> parse_with_alternatives x o1' o2' en' input w b 0 n = Ok r.
Proof. exact two_parse. Qed.
Print Assumptions C82_parse.

(** The slots of an intent do not depend on them. *)
Theorem C82_slots : forall x shape ngrams mx L fo fo' uo uo' f p, pairs_once L f ->
  forall m en en' input, filters_are_sets L ->
  from_path x shape ngrams mx L fo uo f p = Ok en -> from_path x shape ngrams mx L fo' uo' f p = Ok en' ->
  file_says L fo f p $"nlu_engine.json" d_engine m ->
  externals_ok x L (en_resources en) input -> sizes_ok x L fo f p m (en_resources en) input ->
  forall i n r,
  get_slots_with_alternatives x en input i n = Ok r <-> get_slots_with_alternatives x en' input i n = Ok r.
Proof. exact two_slots. Qed.
Print Assumptions C82_slots.

(** Nor does the slot extracted from a text, whatever the text. *)
Theorem C82_extract : forall x shape ngrams mx L fo fo' uo uo' f p, pairs_once L f ->
  forall m en en' input,
  from_path x shape ngrams mx L fo uo f p = Ok en -> from_path x shape ngrams mx L fo' uo' f p = Ok en' ->
  file_says L fo f p $"nlu_engine.json" d_engine m ->
  forall i s n r,
  extract_slot_with_alternatives x en input i s n = Ok r <-> extract_slot_with_alternatives x en' input i s n = Ok r.
Proof. exact two_extract. Qed.
Print Assumptions C82_extract.

(** The list of the intents has the same intents with the same scores; intents with equal scores
    can be in another order. *)
Theorem C82_intents : forall x shape ngrams mx L fo fo' uo uo' f p, pairs_once L f ->
  forall m en en' input, filters_are_sets L ->
  from_path x shape ngrams mx L fo uo f p = Ok en -> from_path x shape ngrams mx L fo' uo' f p = Ok en' ->
  file_says L fo f p $"nlu_engine.json" d_engine m ->
  externals_ok x L (en_resources en) input -> sizes_ok x L fo f p m (en_resources en) input ->
  forall o o', hardly_ambiguous x L fo f p m (en_resources en) input None ->
  ((exists l, get_intents o en input = Ok l) <-> (exists l', get_intents o' en' input = Ok l')) /\
  forall l l', get_intents o en input = Ok l -> get_intents o' en' input = Ok l' -> Permutation l l'.
Proof. exact two_intents. Qed.
Print Assumptions C82_intents.

(** With intent alternatives, the whole answer is the same when the confidences of the intents are
    different. *)
Theorem C82_alternatives : forall x shape ngrams mx L fo fo' uo uo' f p, pairs_once L f ->
  forall m en en' input, filters_are_sets L ->
  from_path x shape ngrams mx L fo uo f p = Ok en -> from_path x shape ngrams mx L fo' uo' f p = Ok en' ->
  file_says L fo f p $"nlu_engine.json" d_engine m ->
  externals_ok x L (en_resources en) input -> sizes_ok x L fo f p m (en_resources en) input ->
  forall o1 o2 o1' o2' w b k n r,
  no_ties o2 en input -> hardly_ambiguous x L fo f p m (en_resources en) input None ->
  (forall wl, get_intents_whitelist o1 en w b = Ok wl -> hardly_ambiguous x L fo f p m (en_resources en) input wl) ->
  parse_with_alternatives x o1 o2 en input w b k n = Ok r <-> parse_with_alternatives x o1' o2' en' input w b k n = Ok r.
Proof. exact two_alternatives. Qed.
Print Assumptions C82_alternatives.

(** With equal confidences the alternatives depend on the iteration order of a hash table, even for
    one loaded engine. *)
Theorem C82_tied_alternatives_refuted : exists x shape ngrams mx L fo uo f p m en input o o' r r',
  pairs_once L f /\ filters_are_sets L /\ from_path x shape ngrams mx L fo uo f p = Ok en /\
  file_says L fo f p $"nlu_engine.json" d_engine m /\
  externals_ok x L (en_resources en) input /\ sizes_ok x L fo f p m (en_resources en) input /\
  (forall wl, hardly_ambiguous x L fo f p m (en_resources en) input wl) /\
  parse_with_alternatives x id_order o en input None None 1 0 = Ok r /\
  parse_with_alternatives x id_order o' en input None None 1 0 = Ok r' /\
  map (fun a => ir_name (al_intent a)) (ps_alternatives r) = [Some $"seven"] /\
  map (fun a => ir_name (al_intent a)) (ps_alternatives r') = [Some $"many"].
Proof. exact tied_alternatives. Qed.
Print Assumptions C82_tied_alternatives_refuted.

(** Two is the limit: three intents are enough for two processes to answer differently. *)
Theorem C82_three_intents_refuted : exists x shape ngrams mx L fo uo uo' f p m en en' input r r',
  pairs_once L f /\ filters_are_sets L /\ from_path x shape ngrams mx L fo uo f p = Ok en /\
  from_path x shape ngrams mx L fo uo' f p = Ok en' /\ file_says L fo f p $"nlu_engine.json" d_engine m /\
  externals_ok x L (en_resources en) input /\ sizes_ok x L fo f p m (en_resources en) input /\
  (forall name rules i slots, In name (em_parsers m) -> rules_at L fo f (pjoin p name) rules ->
     understood x L (en_resources en) input None rules i slots -> In i [$"six"; $"seven"; $"many"]) /\
  parse_with_alternatives x id_order id_order en input None None 0 0 = Ok r /\
  parse_with_alternatives x id_order id_order en' input None None 0 0 = Ok r' /\
  ir_name (ps_intent r) = Some $"six" /\ ir_name (ps_intent r') = None.
Proof. exact tie_order. Qed.
Print Assumptions C82_three_intents_refuted.

(** The home engine loaded with the usual and with reversed iteration orders. *)
Example C82_case :
  load_home = Ok home_engine /\ load_again = Ok again /\ pairs_once home_loader home /\ filters_are_sets home_loader /\
  file_says home_loader (fun _ _ => id_order) home dir_e $"nlu_engine.json" d_engine home_model /\
  externals_ok demo_ext home_loader (en_resources home_engine) bright /\
  sizes_ok demo_ext home_loader (fun _ _ => id_order) home dir_e home_model (en_resources home_engine) bright /\
  (forall wl, hardly_ambiguous demo_ext home_loader (fun _ _ => id_order) home dir_e home_model (en_resources home_engine) bright wl).
Proof. exact seeds_case. Qed.
Example C82_answers_case :
  summary (answer_of home_engine "please brighten  the  Kitchen") = (Some $"lightOn", [($"Kitchen", (22, 29))]) /\
  summary (answer_of again "please brighten  the  Kitchen") = (Some $"lightOn", [($"Kitchen", (22, 29))]) /\
  slots_of home_engine "please brighten  the  Kitchen" "lightOn" = [($"Kitchen", (22, 29))] /\
  slots_of again "please brighten  the  Kitchen" "lightOn" = [($"Kitchen", (22, 29))] /\
  intents_of again "please brighten  the  Kitchen" = [Some $"lightOn"; Some $"setTemp"; None].
Proof. exact seeds_answers. Qed.
Example C82_alternatives_case : no_ties id_order home_engine bright /\
  map (fun en => map (fun a => ir_name (al_intent a)) (ps_alternatives (get_ok no_result
    (parse_with_alternatives demo_ext id_order rev_order en bright None None 2 0)))) [home_engine; again] =
  [[Some $"setTemp"; None]; [Some $"setTemp"; None]].
Proof. exact (conj bright_no_ties bright_alternatives). Qed.
