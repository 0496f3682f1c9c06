(** C90: blanks before and after a text do not change what is understood. *)
From Coq Require Import String List NArith ZArith Permutation.
From Verif Require Import Base F32 M_Types M_Engine M_Det M_Lookup M_Prob M_Fs M_Json M_Load S_Base S_Engine S_Det S_Rules S_Load S_Made S_Seeds S_Case S_Pad
  P_PadEngine Demo Demo_Prob Demo_Crf Demo_Home Demo_Made Demo_Load Demo_Case Demo_Pad.
Import ListNotations.
Local Open Scope string_scope.
Local Open Scope list_scope.
Local Open Scope nat_scope.

(** The text with blanks around it gets the same answer; its slots are [n] characters further. *)
Theorem C90_parse : forall x shape ngrams mx L fo uo f p en m n k input,
  margin_blind x L -> input <> [] -> (Z.of_nat (length (padded n k input)) < 2147483648)%Z ->
  from_path x shape ngrams mx L fo uo f p = Ok en -> file_says L fo f p $"nlu_engine.json" d_engine m ->
  externals_ok x L (en_resources en) input -> rules_allow_margins x L fo f p m (en_resources en) n k input ->
  forall o1 o2 whitelist blacklist alternatives,
  (forall wl, get_intents_whitelist o1 en whitelist blacklist = Ok wl ->
     tables_hardly_ambiguous x L fo f p m (en_resources en) input wl) ->
  parse_with_alternatives x o1 o2 en (padded n k input) whitelist blacklist 0 alternatives =
  on_ok (moved_answer n k) (parse_with_alternatives x o1 o2 en input whitelist blacklist 0 alternatives).
Proof. exact pad_parse. Qed.
Print Assumptions C90_parse.

(** The slots of an intent are found at the same words. *)
Theorem C90_slots : forall x shape ngrams mx L fo uo f p en m n k input,
  margin_blind x L -> (Z.of_nat (length (padded n k input)) < 2147483648)%Z ->
  from_path x shape ngrams mx L fo uo f p = Ok en -> file_says L fo f p $"nlu_engine.json" d_engine m ->
  externals_ok x L (en_resources en) input -> rules_allow_margins x L fo f p m (en_resources en) n k input ->
  forall intent alternatives,
  get_slots_with_alternatives x en (padded n k input) intent alternatives =
  on_ok (map (moved_slot n)) (get_slots_with_alternatives x en input intent alternatives).
Proof. exact pad_slots. Qed.
Print Assumptions C90_slots.

(** The intents have the same confidences; only the order of equal ones may differ. *)
Theorem C90_intents : forall x shape ngrams mx L fo uo f p en m n k input,
  margin_blind x L -> input <> [] -> (Z.of_nat (length (padded n k input)) < 2147483648)%Z ->
  from_path x shape ngrams mx L fo uo f p = Ok en -> file_says L fo f p $"nlu_engine.json" d_engine m ->
  externals_ok x L (en_resources en) input -> rules_allow_margins x L fo f p m (en_resources en) n k input ->
  forall o o', tables_hardly_ambiguous x L fo f p m (en_resources en) input None ->
  same_out (@Permutation _) (get_intents o en input) (get_intents o' en (padded n k input)).
Proof. exact pad_intents. Qed.
Print Assumptions C90_intents.

(** Without ties the whole answer is the same, alternatives included, whatever the seeds of the
    hash tables are. *)
Theorem C90_alternatives : forall x shape ngrams mx L fo uo f p en m n k input,
  margin_blind x L -> input <> [] -> (Z.of_nat (length (padded n k input)) < 2147483648)%Z ->
  from_path x shape ngrams mx L fo uo f p = Ok en -> file_says L fo f p $"nlu_engine.json" d_engine m ->
  externals_ok x L (en_resources en) input -> rules_allow_margins x L fo f p m (en_resources en) n k input ->
  forall o1 o2 o2' whitelist blacklist intents alternatives,
  no_ties o2 en input -> tables_hardly_ambiguous x L fo f p m (en_resources en) input None ->
  (forall wl, get_intents_whitelist o1 en whitelist blacklist = Ok wl ->
     tables_hardly_ambiguous x L fo f p m (en_resources en) input wl) ->
  parse_with_alternatives x o1 o2' en (padded n k input) whitelist blacklist intents alternatives =
  on_ok (moved_answer n k) (parse_with_alternatives x o1 o2 en input whitelist blacklist intents alternatives).
Proof. exact pad_alternatives. Qed.
Print Assumptions C90_alternatives.

(** A slot extracted from a text is at the same words, unless it is the whole text: then the
    blanks belong to its value. *)
Theorem C90_extract : forall x shape ngrams mx L fo uo f p en n k input,
  margin_blind x L -> (Z.of_nat (length (padded n k input)) < 2147483648)%Z ->
  from_path x shape ngrams mx L fo uo f p = Ok en -> externals_ok x L (en_resources en) input ->
  forall intent slot alternatives,
  extract_slot_with_alternatives x en (padded n k input) intent slot alternatives =
    on_ok (option_map (moved_slot n)) (extract_slot_with_alternatives x en input intent slot alternatives) \/
  exists entity,
    extract_slot_with_alternatives x en input intent slot alternatives = Ok (Some (whole_text input entity slot)) /\
    extract_slot_with_alternatives x en (padded n k input) intent slot alternatives =
      Ok (Some (whole_text (padded n k input) entity slot)).
Proof. exact pad_extract. Qed.
Print Assumptions C90_extract.

(** The empty text is not like a blank one: no intent is found in it, whereas the blank one is
    given to the classifier. *)
Theorem C90_empty_refuted : exists x shape ngrams mx L fo uo f p en m n k r r',
  margin_blind x L /\ (Z.of_nat (length (padded n k [])) < 2147483648)%Z /\
  from_path x shape ngrams mx L fo uo f p = Ok en /\ file_says L fo f p $"nlu_engine.json" d_engine m /\
  externals_ok x L (en_resources en) [] /\ rules_allow_margins x L fo f p m (en_resources en) n k [] /\
  (forall wl, tables_hardly_ambiguous x L fo f p m (en_resources en) [] wl) /\
  parse_with_alternatives x id_order id_order en [] None None 0 0 = Ok r /\
  parse_with_alternatives x id_order id_order en (padded n k []) None None 0 0 = Ok r' /\
  ir_name (ps_intent r) = None /\ ir_name (ps_intent r') = Some $"lightOn".
Proof. exact empty_differs. Qed.
Print Assumptions C90_empty_refuted.

Example C90_case :
  margin_blind demo_ext pad_loader /\
  from_path demo_ext demo_shape no_ngrams demo_math pad_loader home_orders home_orders home dir_e = Ok pad_engine /\
  file_says pad_loader home_orders home dir_e $"nlu_engine.json" d_engine case_model /\
  (forall input wl, tables_hardly_ambiguous demo_ext pad_loader home_orders home dir_e case_model (en_resources pad_engine) input wl) /\
  pad_setting 2 1 on_text /\ pad_setting 3 2 turn_text /\
  no_ties id_order pad_engine on_text.
Proof. exact pad_case. Qed.
Example C90_answers :
  padded 2 1 on_text = $"  light on in the kitchen " /\
  pad_summary on_text = (Some $"lightOn", [($"kitchen", (16, 23))]) /\
  pad_summary $"  light on in the kitchen " = (Some $"lightOn", [($"kitchen", (18, 25))]) /\
  padded 3 2 turn_text = $"   turn on the living room now  " /\
  pad_summary turn_text = (Some $"lightOn", [($"living room", (12, 23))]) /\
  pad_summary $"   turn on the living room now  " = (Some $"lightOn", [($"living room", (15, 26))]).
Proof. exact pad_answers. Qed.
Example C90_slots_case :
  pad_slots_of turn_text = [($"living room", $"room", (12, 23))] /\ pad_slots_of (padded 3 2 turn_text) = [($"living room", $"room", (15, 26))] /\
  pad_alternatives_of on_text = [(Some $"setTemp", []); (None, [])] /\ pad_alternatives_of (padded 2 1 on_text) = [(Some $"setTemp", []); (None, [])] /\
  pad_extracted $"kitchen" = Some ($"kitchen", $"room", (0, 7)) /\ pad_extracted (padded 1 0 $"kitchen") = Some ($"kitchen", $"room", (1, 8)) /\
  pad_extracted $"cellar" = Some ($"cellar", $"room", (0, 6)) /\ pad_extracted (padded 1 0 $"cellar") = Some ($" cellar", $"room", (0, 7)).
Proof. exact pad_more_answers. Qed.
