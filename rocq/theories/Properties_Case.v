(** Properties of texts that differ by the case of letters only: C83. Two calls of one engine:
    [input] and [input'] are the texts, [same_out] relates the two outcomes.
    [Print Assumptions] beneath each theorem lists what it rests on. *)
From Coq Require Import String List NArith ZArith Bool Arith Permutation.
From Verif Require Import Base F32 M_Types M_Engine M_Det M_Lookup M_Prob M_Features M_Filler M_Fs M_Json M_Load
  S_Load S_Match S_Made S_Seeds S_Case P_CaseEngine Demo Demo_Load Demo_Home Demo_Made Demo_Case.
Import ListNotations.
Local Open Scope string_scope.
Local Open Scope list_scope.
Local Open Scope nat_scope.

(** ** C83 *)
(** Two texts that differ by the case of letters have the same intent, with the same score, and
    the same slots at the same places, if the engine uses neither cooccurrences of words nor
    shapes of words. *)
Theorem C83_parse : forall x shape ngrams mx L fo uo f p en m input input',
  case_blind x ngrams L -> same_text x input input' -> from_path x shape ngrams mx L fo uo f p = Ok en ->
  file_says L fo f p $"nlu_engine.json" d_engine m -> small_tables L fo f p m ->
  forall o1 o2 w b n,
  no_cooccurrences L fo f p -> no_shapes L fo f p -> no_flags L fo f p ->
  (forall wl, get_intents_whitelist o1 en w b = Ok wl -> tables_hardly_ambiguous x L fo f p m (en_resources en) input wl) ->
  same_out (same_answer x) (parse_with_alternatives x o1 o2 en input w b 0 n) (parse_with_alternatives x o1 o2 en input' w b 0 n).
Proof. exact case_parse. Qed.
Print Assumptions C83_parse.

(** The slots of an intent are the same if the engine does not use shapes of words. *)
Theorem C83_slots : forall x shape ngrams mx L fo uo f p en m input input',
  case_blind x ngrams L -> same_text x input input' -> from_path x shape ngrams mx L fo uo f p = Ok en ->
  file_says L fo f p $"nlu_engine.json" d_engine m -> small_tables L fo f p m ->
  forall i n, no_shapes L fo f p -> no_flags L fo f p ->
  same_out (Forall2 (same_slot x)) (get_slots_with_alternatives x en input i n) (get_slots_with_alternatives x en input' i n).
Proof. exact case_slots. Qed.
Print Assumptions C83_slots.

(** The list of the intents has the same intents and scores if the engine does not use
    cooccurrences. *)
Theorem C83_intents : forall x shape ngrams mx L fo uo f p en m input input',
  case_blind x ngrams L -> same_text x input input' -> from_path x shape ngrams mx L fo uo f p = Ok en ->
  file_says L fo f p $"nlu_engine.json" d_engine m -> small_tables L fo f p m ->
  forall o o', no_cooccurrences L fo f p -> no_flags L fo f p ->
  tables_hardly_ambiguous x L fo f p m (en_resources en) input None ->
  same_out (@Permutation _) (get_intents o en input) (get_intents o' en input').
Proof. exact case_intents. Qed.
Print Assumptions C83_intents.

(** With intent alternatives, the whole answer is the same when the confidences of the intents are
    different. *)
Theorem C83_alternatives : forall x shape ngrams mx L fo uo f p en m input input',
  case_blind x ngrams L -> same_text x input input' -> from_path x shape ngrams mx L fo uo f p = Ok en ->
  file_says L fo f p $"nlu_engine.json" d_engine m -> small_tables L fo f p m ->
  forall o1 o2 o2' w b k n,
  no_cooccurrences L fo f p -> no_shapes L fo f p -> no_flags L fo f p ->
  no_ties o2 en input -> tables_hardly_ambiguous x L fo f p m (en_resources en) input None ->
  (forall wl, get_intents_whitelist o1 en w b = Ok wl -> tables_hardly_ambiguous x L fo f p m (en_resources en) input wl) ->
  same_out (same_answer x) (parse_with_alternatives x o1 o2 en input w b k n) (parse_with_alternatives x o1 o2' en input' w b k n).
Proof. exact case_alternatives. Qed.
Print Assumptions C83_alternatives.

(** The slot extracted from a text is the same, whatever the engine. *)
Theorem C83_extract : forall x shape ngrams mx L fo uo f p en input input',
  case_blind x ngrams L -> same_text x input input' -> from_path x shape ngrams mx L fo uo f p = Ok en ->
  forall i s n, same_out (opt_rel (same_slot x)) (extract_slot_with_alternatives x en input i s n)
                         (extract_slot_with_alternatives x en input' i s n).
Proof. exact case_extract. Qed.
Print Assumptions C83_extract.

(** Cooccurrences are compared with the words as the user wrote them: a capital can change the
    intent. *)
Theorem C83_cooccurrences_refuted : exists x shape ngrams mx L fo uo f p m en input input' r r',
  case_blind x ngrams L /\ same_text x input input' /\ from_path x shape ngrams mx L fo uo f p = Ok en /\
  file_says L fo f p $"nlu_engine.json" d_engine m /\ small_tables L fo f p m /\ no_flags L fo f p /\
  (forall wl, tables_hardly_ambiguous x L fo f p m (en_resources en) input wl) /\ no_shapes L fo f p /\
  parse_with_alternatives x id_order id_order en input None None 0 0 = Ok r /\
  parse_with_alternatives x id_order id_order en input' None None 0 0 = Ok r' /\
  ir_name (ps_intent r) = Some $"lightOn" /\ ir_name (ps_intent r') = Some $"setTemp".
Proof. exact pairs_matter. Qed.
Print Assumptions C83_cooccurrences_refuted.

(** Shapes of words tell capitals from small letters: a capital can change the slots. *)
Theorem C83_shapes_refuted : exists x shape ngrams mx L fo uo f p m en input input' i r r',
  case_blind x ngrams L /\ same_text x input input' /\ from_path x shape ngrams mx L fo uo f p = Ok en /\
  file_says L fo f p $"nlu_engine.json" d_engine m /\ small_tables L fo f p m /\ no_flags L fo f p /\
  (forall wl, tables_hardly_ambiguous x L fo f p m (en_resources en) input wl) /\ no_cooccurrences L fo f p /\
  get_slots_with_alternatives x en input i 0 = Ok r /\ get_slots_with_alternatives x en input' i 0 = Ok r' /\
  length r = 0 /\ length r' = 1.
Proof. exact shapes_matter. Qed.
Print Assumptions C83_shapes_refuted.

(** A variant of the home engine: patterns, a table and a probabilistic parser. *)
Example C83_case :
  case_blind demo_ext no_ngrams (case_loader false false) /\
  same_text demo_ext $"turn on the living room now" $"TURN on thE livING Room now" /\
  load_case false false = Ok (case_engine false false) /\
  file_says (case_loader false false) (fun _ _ => id_order) home dir_e $"nlu_engine.json" d_engine case_model /\
  small_tables (case_loader false false) (fun _ _ => id_order) home dir_e case_model /\
  no_cooccurrences (case_loader false false) (fun _ _ => id_order) home dir_e /\
  no_shapes (case_loader false false) (fun _ _ => id_order) home dir_e /\
  no_flags (case_loader false false) (fun _ _ => id_order) home dir_e /\
  forall input wl, tables_hardly_ambiguous demo_ext (case_loader false false) (fun _ _ => id_order) home dir_e case_model
                     (en_resources (case_engine false false)) input wl.
Proof. exact case_case. Qed.
(** Two texts for each parser. *)
Example C83_answers_case :
  case_summary false false "light on in the kitchen" = (Some $"lightOn", [($"kitchen", (16, 23))]) /\
  case_summary false false "LIGHT on In the kitCHEN" = (Some $"lightOn", [($"kitCHEN", (16, 23))]) /\
  case_summary false false "please brighten  the  Kitchen" = (Some $"lightOn", [($"Kitchen", (22, 29))]) /\
  case_summary false false "PLEASE BRIGHTEN  THE  KITCHEN" = (Some $"lightOn", [($"KITCHEN", (22, 29))]) /\
  case_summary false false "turn on the living room now" = (Some $"lightOn", [($"living room", (12, 23))]) /\
  case_summary false false "TURN on thE livING Room now" = (Some $"lightOn", [($"livING Room", (12, 23))]).
Proof. exact case_answers. Qed.
Example C83_alternatives_case : no_ties id_order (case_engine false false) $"please brighten  the  Kitchen" /\
  case_alternatives_of "please brighten  the  Kitchen" = [(Some $"setTemp", 0); (None, 0)] /\
  case_alternatives_of "PLEASE BRIGHTEN  THE  KITCHEN" = [(Some $"setTemp", 0); (None, 0)].
Proof. exact case_alternatives_case. Qed.
