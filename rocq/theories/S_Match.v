(** Specification of what the rule based parsers recognise: C62, C63. *)
From Coq Require Import String List NArith ZArith.
From Verif Require Import Base F32 M_Types M_Utils M_Det M_Lookup S_Base S_Utils S_Engine S_Det S_Rules.
Import ListNotations.

(** ** Shared vocabulary *)

(** The intent is allowed by the filter. *)
Definition allowed (f : option (list str)) (i : str) : Prop :=
  match f with Some l => In i l | None => True end.

(** A word ignored for an intent: a stop word of the language, when the model asks to ignore
    them, that the model does not list as meaningful for the intent. *)
Definition ignored (ignore : bool) (res : Resources) (whitelist : list (str * list str)) (intent w : str) : Prop :=
  ignore = true /\ In w (rs_stop_words res) /\
  forall ws, In (intent, ws) whitelist -> ~ In w ws.

(** What stands for an entity: its name, without blanks and in upper case, between '%'. *)
Definition placeholder (x : Ext) (entity : str) : str :=
  37%N :: x_upper x (concat (x_tokenize_light x EN entity)) ++ [37%N].

(** The text where these entities are replaced. *)
Definition with_placeholders (x : Ext) (input : str) (es : list MatchedEntity) : str :=
  apply_edits input 0 (map (fun e => (me_range e, placeholder x (me_name e))) es).

(** ** The lookup parser *)

(** [kept] is [words] without the words whose normal form is ignored. *)
Inductive words_kept (x : Ext) (ign : str -> Prop) : list str -> list str -> Prop :=
| wk_nil : words_kept x ign [] []
| wk_keep w l m : ~ ign (x_normalize x w) -> words_kept x ign l m -> words_kept x ign (w :: l) (w :: m)
| wk_drop w l m : ign (x_normalize x w) -> words_kept x ign l m -> words_kept x ign (w :: l) m.
Fixpoint spaced (l : list str) : str :=
  match l with
  | [] => []
  | [w] => w
  | w :: r => w ++ 32%N :: spaced r
  end.
(** The form under which a text is learnt: the words that are not ignored, separated by one
    blank, in lower case. *)
Definition learnt_form (x : Ext) (l : lang) (ign : str -> Prop) (s t : str) : Prop :=
  exists kept, words_kept x ign (x_tokenize_light x l s) kept /\ t = x_lower x (spaced kept).

(** The element with this identifier. *)
Definition at_id {A} (l : list A) (id : Z) (a : A) : Prop := (0 <= id)%Z /\ nth_error l (Z.to_nat id) = Some a.

(** The table gives [intent] and [slots] for the form [t] of a text with the entities [es]:
    the slots of the entry are those of the entities, in order. *)
Definition table_gives (x : Ext) (m : LookupModel) (input t : str) (es : list MatchedEntity) (intent : str)
    (slots : list InternalSlot) : Prop :=
  exists id ids, hget Z.eqb (x_hash x t) (lm_map m) = Some (id, ids) /\ at_id (lm_intents_names m) id intent /\
    Forall2 (fun ie s => at_id (lm_slots_names m) (fst ie) (is_slot_name s) /\
                         is_value s = substring input (me_range (snd ie)) /\
                         is_range s = me_range (snd ie) /\ is_entity s = me_name (snd ie))
            (combine ids es) slots.

(** The entities of a group of intents in a text, without overlaps (C12). *)
Definition group_entities (x : Ext) (res : Resources) (input : str) (g : GroupedScope) (es : list MatchedEntity) : Prop :=
  exists kinds all, Forall2 (fun id k => x_kind_of_identifier x id = Some k) (es_builtin (gs_scope g)) kinds /\
    entities_found res input (kinds, es_custom (gs_scope g)) all /\ es = deduplicate_overlapping_entities all.

(** The text is recognised as [intent] with [slots], for an intent [j] of a group: the text
    where some of the entities of the group are replaced is learnt, in the form of [j]. *)
Definition recognised_for (x : Ext) (l : lang) (m : LookupModel) (res : Resources) (input : str)
    (g : GroupedScope) (j intent : str) (slots : list InternalSlot) : Prop :=
  exists found es t, group_entities x res input g found /\ subseq es found /\
    learnt_form x l (ignored (lm_ignore_stop_words m) res (lm_stop_whitelist m) j) (with_placeholders x input es) t /\
    table_gives x m input t es intent slots.
Definition recognised (x : Ext) (l : lang) (m : LookupModel) (res : Resources) (input : str) (f : option (list str))
    (intent : str) (slots : list InternalSlot) : Prop :=
  allowed f intent /\
  exists g j, In g (lm_scopes m) /\ In j (gs_intents g) /\ allowed f j /\
    recognised_for x l m res input g j intent slots.

(** No entry of the table has four million slots. *)
Definition small_table (m : LookupModel) : Prop :=
  forall h i ss, In (h, (i, ss)) (lm_map m) -> (Z.of_nat (length ss) < 2 ^ 22)%Z.

(** The matches [ms]: one for each recognised intent, with the fewest slots. *)
Definition recognised_matches (x : Ext) (l : lang) (m : LookupModel) (res : Resources) (input : str)
    (f : option (list str)) (ms : list InternalParsingResult) : Prop :=
  NoDup (map (fun r => ir_name (pr_intent r)) ms) /\
  (forall r, In r ms -> exists i, ir_name (pr_intent r) = Some i /\
     recognised x l m res input f i (pr_slots r) /\
     forall slots, recognised x l m res input f i slots -> length (pr_slots r) <= length slots) /\
  (forall i slots, recognised x l m res input f i slots -> exists r, In r ms /\ ir_name (pr_intent r) = Some i).

(** The entity parsers find the entities of the groups that have an allowed intent. *)
Definition entities_answered (x : Ext) (m : LookupModel) (res : Resources) (input : str) (f : option (list str)) : Prop :=
  forall g j, In g (lm_scopes m) -> In j (gs_intents g) -> allowed f j -> exists es, group_entities x res input g es.

(** ** The deterministic parser *)

(** The name before the first underscore. *)
Definition base_name (n b : str) : Prop :=
  ~ In 95%N b /\ (n = b \/ exists rest, n = b ++ 95%N :: rest).

(** The slot that a capture group stands for, and its entity, for an intent. *)
Definition group_declared (m : DetModel) (intent n slot entity : str) : Prop :=
  exists b decls, base_name n b /\ sget b (dm_groups m) = Some slot /\
    sget intent (dm_slots m) = Some decls /\ sget slot decls = Some entity.

(** The slot of a capture group at the range [r] of [text]; [back] gives the range in the
    user's text. *)
Definition group_slot (m : DetModel) (input text intent : str) (back : range -> range) (n : str) (r : range)
    (s : InternalSlot) : Prop :=
  group_declared m intent n (is_slot_name s) (is_entity s) /\
  is_range s = back (convert_to_char_range text r) /\ is_value s = substring input (is_range s).

(** The groups that have a name and are part of the match, but the whole match. *)
Definition named_captures (caps : list (option str * option range)) : list (str * range) :=
  flat_map (fun c => match c with (Some n, Some r) => [(n, r)] | _ => [] end) (tl caps).

(** What a pattern gives on [text]: nothing; the slots of its groups, overlaps resolved (C12);
    a panic when a group stands for no slot of the intent. *)
Definition pattern_result (x : Ext) (l : lang) (m : DetModel) (input text intent : str) (back : range -> range)
    (r : Regex) (v : outcome (option (list InternalSlot))) : Prop :=
  match r text with
  | None => v = Ok None
  | Some caps =>
      (v = Panic /\ exists n rg, In (n, rg) (named_captures caps) /\
         forall slot entity, ~ group_declared m intent n slot entity) \/
      (exists all, Forall2 (fun g s => group_slot m input text intent back (fst g) (snd g) s) (named_captures caps) all /\
         v = Ok (Some (deduplicate_overlapping_slots x l all)))
  end.

(** The patterns are tried in order, each one on the text [plain] then on the text
    [replaced], where entities are replaced; the first match decides. *)
Inductive tried (x : Ext) (l : lang) (m : DetModel) (input plain replaced intent : str) (back : range -> range)
  : list Regex -> outcome (option (list InternalSlot)) -> Prop :=
| tried_none : tried x l m input plain replaced intent back [] (Ok None)
| tried_plain r rest v : pattern_result x l m input plain intent (fun r => r) r v -> v <> Ok None ->
    tried x l m input plain replaced intent back (r :: rest) v
| tried_replaced r rest v : r plain = None -> pattern_result x l m input replaced intent back r v -> v <> Ok None ->
    tried x l m input plain replaced intent back (r :: rest) v
| tried_next r rest v : r plain = None -> r replaced = None -> tried x l m input plain replaced intent back rest v ->
    tried x l m input plain replaced intent back (r :: rest) v.

(** The first occurrences of the elements of a list, but those of [seen]. *)
Inductive firsts {A} : list A -> list A -> list A -> Prop :=
| firsts_nil seen : firsts seen [] []
| firsts_seen seen a l k : In a seen -> firsts seen l k -> firsts seen (a :: l) k
| firsts_new seen a l k : ~ In a seen -> firsts (a :: seen) l k -> firsts seen (a :: l) (a :: k).

(** The kinds of builtin entities and the custom entities of the slots of an intent. *)
Definition intent_scope (x : Ext) (decls : list (str * str)) (scope : list kind * list str) : Prop :=
  firsts [] (flat_map (fun d => match x_kind_of_identifier x (snd d) with Some k => [k] | None => [] end) decls) (fst scope) /\
  firsts [] (flat_map (fun d => match x_kind_of_identifier x (snd d) with Some _ => [] | None => [snd d] end) decls) (snd scope).

(** The text where what belongs to no token, or to an ignored token, is blank. *)
Definition cleaned (x : Ext) (l : lang) (ign : str -> Prop) (s s' : str) : Prop :=
  blanked (fun i => exists t, In t (x_tokenize x l s) /\ in_range i (tk_char_range t) /\
                              ~ ign (x_normalize x (tk_value t))) s s'.

(** The entities found for an intent, without overlaps. *)
Definition intent_entities (x : Ext) (res : Resources) (input : str) (decls : list (str * str)) (kept : list MatchedEntity) : Prop :=
  exists scope es, intent_scope x decls scope /\ entities_found res input scope es /\
    kept = deduplicate_overlapping_entities es.

(** What the patterns of an intent give on a text. *)
Definition intent_result (x : Ext) (compile : str -> outcome Regex) (l : lang) (m : DetModel) (res : Resources)
    (input intent : str) (decls : list (str * str)) (v : outcome (option (list InternalSlot))) : Prop :=
  exists kept patterns regexes plain replaced,
    intent_entities x res input decls kept /\
    In (intent, patterns) (dm_patterns m) /\ Forall2 (fun p r => compile p = Ok r) patterns regexes /\
    let ign := ignored (dm_ignore_stop_words m) res (dm_stop_whitelist m) intent in
    let edits := map (fun e => (me_range e, placeholder x (me_name e))) kept in
    cleaned x l ign input plain /\ cleaned x l ign (apply_edits input 0 edits) replaced /\
    tried x l m input plain replaced intent (restore_range (edit_positions 0 0 edits)) regexes v.

(** The intent is recognised with these slots. *)
Definition pattern_recognised (x : Ext) (compile : str -> outcome Regex) (l : lang) (m : DetModel) (res : Resources)
    (input : str) (f : option (list str)) (intent : str) (slots : list InternalSlot) : Prop :=
  allowed f intent /\ exists decls, In (intent, decls) (dm_slots m) /\
    intent_result x compile l m res input intent decls (Ok (Some slots)).

(** A model where each intent and each exception is described once. *)
Definition det_keys_once (m : DetModel) : Prop :=
  NoDup (map fst (dm_patterns m)) /\ NoDup (map fst (dm_slots m)) /\ NoDup (map fst (dm_stop_whitelist m)).

(** The text, and what it becomes when entities are replaced, have less than 2^15 characters. *)
Definition texts_fit (x : Ext) (m : DetModel) (res : Resources) (input : str) : Prop :=
  (Z.of_nat (length input) < 32768)%Z /\
  forall i decls kept, In (i, decls) (dm_slots m) -> intent_entities x res input decls kept ->
    (Z.of_nat (length (with_placeholders x input kept)) < 32768)%Z.

(** The number of groups of a pattern fits in a machine word. *)
Definition groups_fit (compile : str -> outcome Regex) : Prop :=
  forall p r s caps, compile p = Ok r -> r s = Some caps -> (Z.of_nat (length caps) < 2 ^ 64)%Z.

(** Each allowed intent with slots has patterns, and its entities are found. *)
Definition intents_ready (x : Ext) (m : DetModel) (res : Resources) (input : str) (f : option (list str)) : Prop :=
  forall i decls, In (i, decls) (dm_slots m) -> allowed f i ->
    In i (map fst (dm_patterns m)) /\ exists kept, intent_entities x res input decls kept.

(** The matches [ms]: one for each recognised intent. *)
Definition pattern_matches (x : Ext) (compile : str -> outcome Regex) (l : lang) (m : DetModel) (res : Resources)
    (input : str) (f : option (list str)) (ms : list InternalParsingResult) : Prop :=
  NoDup (map (fun r => ir_name (pr_intent r)) ms) /\
  forall r, In r ms <-> exists i slots, r = mkIPR (mkIR (Some i) f1) slots /\
    pattern_recognised x compile l m res input f i slots.

(** Each named group of a pattern of an intent stands for a slot of the intent. *)
Definition groups_declared (compile : str -> outcome Regex) (m : DetModel) : Prop :=
  forall i patterns p r s caps n rg, In (i, patterns) (dm_patterns m) -> In p patterns -> compile p = Ok r ->
    r s = Some caps -> In (n, rg) (named_captures caps) -> exists slot entity, group_declared m i n slot entity.

(** A lookup parser made from a model. *)
Definition lookup_setting (lang_of : str -> option lang) (o : HashOrder) (m : LookupModel) (res : Resources)
    (lp : LookupParser) : Prop :=
  lookup_new lang_of o m res = Ok lp /\ NoDup (map fst (lm_stop_whitelist m)) /\ small_table m.

(** A deterministic parser made from a model, with external parts that respect their
    contracts, and a text of reasonable length. *)
Definition det_setting (x : Ext) (lang_of : str -> option lang) (compile : str -> outcome Regex)
    (o1 o2 o3 : HashOrder) (m : DetModel) (res : Resources) (dp : DetParser) (input : str) : Prop :=
  det_new x lang_of compile o1 o2 o3 m res = Ok dp /\ det_keys_once m /\ tokenizer_ok x /\
  builtin_parser_ok (rs_builtin res) input /\ custom_parser_ok (rs_custom res) input /\ texts_fit x m res input /\ groups_fit compile.
