(** Model of src/intent_parser/deterministic_intent_parser.rs. *)
From Coq Require Import String List NArith ZArith Bool Arith.
From Verif Require Import Base Sorting F32 M_Types M_Utils M_Engine.
Import ListNotations.

(** A compiled [regex::Regex] (external crate) is represented by its behaviour:
    on a text, nothing, or the capture groups of its first match, group 0 (the
    whole match) first; each group has an optional name and an optional byte range. *)
Definition Regex := str -> option (list (option str * option range)).

(** src/models/intent_parser.rs:11-19 *)
Record DetModel := mkDM {
  dm_language : str;
  dm_patterns : list (str * list str);
  dm_groups : list (str * str);                   (* group name -> slot name *)
  dm_slots : list (str * list (str * str));       (* intent -> slot name -> entity *)
  dm_stop_whitelist : list (str * list str);
  dm_ignore_stop_words : bool
}.

(** deterministic_intent_parser.rs:30-39 *)
Record DetParser := mkDP {
  dp_lang : lang;
  dp_regexes : list (str * list Regex);
  dp_groups : list (str * str);
  dp_slots : list (str * list (str * str));
  dp_stop : list str;
  dp_specific_stop : list (str * list str);
  dp_scopes : list (str * (list kind * list str));
  dp_res : Resources
}.

(** deterministic_intent_parser.rs:71-93: scope of one intent. *)
Definition det_scope (x : Ext) (mapping : list (str * str)) : list kind * list str :=
  (unique str_eqb (filter_map (fun se => x_kind_of_identifier x (snd se)) mapping),
   unique str_eqb (filter_map (fun se => match x_kind_of_identifier x (snd se) with
                                         | Some _ => None | None => Some (snd se) end) mapping)).

(** stop_words minus the intent's whitelist, lines 99-112; also
    lookup_intent_parser.rs:69-82. *)
Definition specific_stop_words (stop : list str) (whitelist : list (str * list str))
    : list (str * list str) :=
  map (fun iw => (fst iw, filter (fun w => negb (smem w (snd iw))) stop)) whitelist.

(** deterministic_intent_parser.rs:370-383. [compile] is [RegexBuilder::build]. *)
Definition compile_regexes (compile : str -> outcome Regex) (patterns : list (str * list str))
    : outcome (list (str * list Regex)) :=
  mapM (fun ip => let* rs := mapM compile (snd ip) in Ok (fst ip, rs)) patterns.

(** deterministic_intent_parser.rs:66-122.  [lang_of] is [Language::from_str];
    [o1], [o2], [o3] are the iteration orders of the three maps that are built. *)
Definition det_new (x : Ext) (lang_of : str -> option lang) (compile : str -> outcome Regex)
    (o1 o2 o3 : HashOrder) (m : DetModel) (res : Resources) : outcome DetParser :=
  let* l := ok_or EOther (lang_of (dm_language m)) in
  let scopes := map (fun im => (fst im, det_scope x (snd im))) (dm_slots m) in
  let stop := if dm_ignore_stop_words m then rs_stop_words res else [] in
  let* regexes := compile_regexes compile (dm_patterns m) in
  Ok (mkDP l (reorder o1 regexes) (dm_groups m) (dm_slots m) stop
           (reorder o2 (specific_stop_words stop (dm_stop_whitelist m)))
           (reorder o3 scopes) res).

(** deterministic_intent_parser.rs:403-410 and lookup_intent_parser.rs:345-352 *)
Definition get_entity_placeholder (x : Ext) (label : str) : str :=
  $"%" ++ x_upper x (join [] (x_tokenize_light x EN label)) ++ $"%".

(** deterministic_intent_parser.rs:286-307.  State: text built so far, index. *)
Definition preprocess_step (x : Ext) (stop : list str) (st : outcome (str * nat)) (t : token)
    : outcome (str * nat) :=
  let* st := st in
  let value := if smem (x_normalize x (tk_value t)) stop
               then spaces (length (tk_value t)) else tk_value t in
  let* prefix_length := usub (rstart (tk_char_range t)) (snd st) in
  Ok (fst st ++ spaces prefix_length ++ value, rend (tk_char_range t)).

(** deterministic_intent_parser.rs:287-290 *)
Definition stop_words_of (stop : list str) (specific : list (str * list str)) (intent : str) : list str :=
  match sget intent specific with Some s => s | None => stop end.

(** deterministic_intent_parser.rs:286-306 *)
Definition det_preprocess (x : Ext) (dp : DetParser) (s : str) (intent : str) : outcome str :=
  let stop := stop_words_of (dp_stop dp) (dp_specific_stop dp) intent in
  let* st := fold_left (preprocess_step x stop) (x_tokenize x (dp_lang dp) s) (Ok ([], 0)) in
  let* suffix_length := usub (length s) (snd st) in
  Ok (fst st ++ spaces suffix_length).

(** deterministic_intent_parser.rs:412-426; arithmetic on i32 wraps. *)
Definition shift_step (match_start : nat) (st : Z * nat) (m : range * range) : Z * nat :=
  let '(shift, prev) := st in
  let '(rep, orig) := m in
  if (rend rep <=? match_start) && (prev <? rend rep)
  then (as_i32 (as_i32 (Z.of_nat (rend orig)) - as_i32 (Z.of_nat (rend rep))), rend rep)
  else st.

(** deterministic_intent_parser.rs:412-426 *)
Definition get_range_shift (r : range) (mapping : list (range * range)) : Z :=
  fst (fold_left (shift_step (rstart r)) mapping (0%Z, 0)).

(** deterministic_intent_parser.rs:341-353: range in the user's text. [mapping] is in
    iteration order. *)
Definition restore_range (mapping : list (range * range)) (r : range) : range :=
  match hget range_eqb r mapping with
  | Some orig => orig
  | None =>
      let shift := get_range_shift r mapping in
      (as_usize (as_i32 (as_i32 (Z.of_nat (rstart r)) + shift)),
       as_usize (as_i32 (as_i32 (Z.of_nat (rend r)) + shift)))
  end.

(** deterministic_intent_parser.rs:385-401 *)
Definition slot_sort_key (x : Ext) (l : lang) (s : InternalSlot) : Z :=
  (- as_i32 (Z.of_nat (length (x_tokenize x l (is_value s)) + length (is_value s))))%Z.

(** deterministic_intent_parser.rs:385-401 *)
Definition deduplicate_overlapping_slots (x : Ext) (l : lang) (slots : list InternalSlot)
    : list InternalSlot :=
  sort_by_key (fun s => Z.of_nat (rstart (is_range s)))
    (deduplicate_overlapping_items
       (fun a b => ranges_overlap (is_range a) (is_range b)) (slot_sort_key x l) slots).

(** [group_name.split('_').collect()[0]].  deterministic_intent_parser.rs:338 *)
Fixpoint before_underscore (s : str) : str :=
  match s with
  | [] => []
  | c :: r => if (c =? 95)%N then [] else c :: before_underscore r
  end.

(** [map[key]] panics when the key is absent.  deterministic_intent_parser.rs:339-340 *)
Definition sindex {V} (k : str) (m : list (str * V)) : outcome V :=
  match sget k m with Some v => Ok v | None => Panic end.

(** deterministic_intent_parser.rs:336-361: the slot of one named group. *)
Definition slot_of_group (dp : DetParser) (input formatted intent : str)
    (mapping : option (list (range * range))) (g : str * range) : outcome InternalSlot :=
  let group_name := before_underscore (fst g) in
  let* slot_name := sindex group_name (dp_groups dp) in
  let* by_slot := sindex intent (dp_slots dp) in
  let* entity := sindex slot_name by_slot in
  let char_range := convert_to_char_range formatted (snd g) in
  let char_range := match mapping with
                    | Some m => restore_range m char_range
                    | None => char_range
                    end in
  Ok (mkIS (substring input char_range) char_range entity slot_name).

(** Groups that are named and matched.  deterministic_intent_parser.rs:327-336 *)
Definition named_groups (caps : list (option str * option range)) : list (str * range) :=
  filter_map (fun c => match c with (Some n, Some r) => Some (n, r) | _ => None end) (skipn 1 caps).

(** deterministic_intent_parser.rs:309-367.  [is_match] holds iff [captures_iter]
    has a first element; the loop body returns on the first one. *)
Definition get_matching_result (x : Ext) (dp : DetParser) (input formatted : str) (regex : Regex)
    (intent : str) (mapping : option (list (range * range))) : outcome (option InternalParsingResult) :=
  match regex formatted with
  | None => Ok None
  | Some caps =>
      let* slots := mapM (slot_of_group dp input formatted intent mapping) (named_groups caps) in
      Ok (Some (mkIPR (mkIR (Some intent) f1)
                      (deduplicate_overlapping_slots x (dp_lang dp) slots)))
  end.

(** src/utils.rs:110-126 *)
Definition matched_of_builtin (e : BuiltinEntity) : MatchedEntity := mkME (be_range e) (be_kind e).
(** src/utils.rs:119-126 *)
Definition matched_of_custom (e : CustomEntity) : MatchedEntity := mkME (ce_range e) (ce_entity e).

(** [find_map] over the regexes.  deterministic_intent_parser.rs:239-254 *)
Fixpoint first_match (x : Ext) (dp : DetParser) (input cleaned cleaned_formatted intent : str)
    (mapping : list (range * range)) (regexes : list Regex) : outcome (option InternalParsingResult) :=
  match regexes with
  | [] => Ok None
  | r :: rest =>
      let* m := get_matching_result x dp input cleaned r intent None in
      match m with
      | Some res => Ok (Some res)
      | None =>
          let* m' := get_matching_result x dp input cleaned_formatted r intent (Some mapping) in
          match m' with
          | Some res => Ok (Some res)
          | None => first_match x dp input cleaned cleaned_formatted intent mapping rest
          end
      end
  end.

(** deterministic_intent_parser.rs:216-258: one intent.  [ord]: iteration order of
    [ranges_mapping]. *)
Definition match_intent (x : Ext) (ord : HashOrder) (dp : DetParser) (input : str)
    (intent : str) (scope : list kind * list str) : outcome (option InternalParsingResult) :=
  let* bes := rs_builtin (dp_res dp) input (Some (fst scope)) true 0 in
  let* ces := rs_custom (dp_res dp) input (Some (snd scope)) 0 in
  let matched := map matched_of_builtin bes ++ map matched_of_custom ces in
  let '(mapping, formatted) := replace_entities input matched (get_entity_placeholder x) in
  let* cleaned := det_preprocess x dp input intent in
  let* cleaned_formatted := det_preprocess x dp formatted intent in
  let* regexes := ok_or EOther (sget intent (dp_regexes dp)) in
  first_match x dp input cleaned cleaned_formatted intent (reorder ord mapping) regexes.

(** Weight of a result, lines 263-266; lookup_intent_parser.rs:194. *)
Definition result_weight (r : InternalParsingResult) : f32 :=
  fdiv f1 (fadd f1 (f32_of_nat (length (pr_slots r)))).

(** deterministic_intent_parser.rs:261-283 sets this field. *)
Definition with_score (r : InternalParsingResult) (s : f32) : InternalParsingResult :=
  mkIPR (mkIR (ir_name (pr_intent r)) s) (pr_slots r).

(** Scores, sort, truncation.  deterministic_intent_parser.rs:261-283 *)
Definition rank_results (top_n : nat) (results : list InternalParsingResult)
    : outcome (list InternalParsingResult) :=
  let total := fsum (map result_weight results) in
  let* sorted := sort_desc (fun r => ir_score (pr_intent r))
                   (map (fun r => with_score r (fdiv (result_weight r) total)) results) in
  Ok (firstn top_n sorted).

(** The intents considered.  deterministic_intent_parser.rs:203-214 *)
Definition considered (dp : DetParser) (intents : option (list str)) : list (str * (list kind * list str)) :=
  let set := match intents with Some l => l | None => hkeys (dp_slots dp) end in
  filter (fun e => smem (fst e) set) (dp_scopes dp).

(** The matches, in iteration order of [entity_scopes].  deterministic_intent_parser.rs:201-259 *)
Definition det_matches (x : Ext) (ord : HashOrder) (dp : DetParser) (input : str)
    (intents : option (list str)) : outcome (list InternalParsingResult) :=
  let* opts := mapM (fun e => match_intent x ord dp input (fst e) (snd e)) (considered dp intents) in
  Ok (filter_map (fun o => o) opts).

(** deterministic_intent_parser.rs:195-284 *)
Definition det_parse_top (x : Ext) (ord : HashOrder) (dp : DetParser) (input : str) (top_n : nat)
    (intents : option (list str)) : outcome (list InternalParsingResult) :=
  let* results := det_matches x ord dp input intents in
  rank_results top_n results.

(** The ambiguity rule, deterministic_intent_parser.rs:132-150 and
    lookup_intent_parser.rs:102-120. *)
Definition answer_of (tops : list InternalParsingResult) : InternalParsingResult :=
  let none := mkIPR (mkIR None f1) [] in
  match tops with
  | [] => none
  | res :: _ => if fle (ir_score (pr_intent res)) fhalf then none else res
  end.

(** deterministic_intent_parser.rs:126-154 *)
Definition det_parse (x : Ext) (ord : HashOrder) (dp : DetParser) (input : str)
    (intents : option (list str)) : outcome InternalParsingResult :=
  let* tops := det_parse_top x ord dp input 1 intents in
  Ok (answer_of tops).

(** Completion of the list with the intents that do not match, and the null intent,
    deterministic_intent_parser.rs:163-181 and lookup_intent_parser.rs:133-151. *)
Definition complete_intents (names : list str) (tops : list IntentResult) : list IntentResult :=
  let matched := filter_map ir_name tops in
  tops ++ map (fun i => mkIR (Some i) f0) (filter (fun i => negb (smem i matched)) names)
       ++ [mkIR None f0].

(** deterministic_intent_parser.rs:156-182 *)
Definition det_get_intents (x : Ext) (ord : HashOrder) (dp : DetParser) (input : str)
    : outcome (list IntentResult) :=
  let* tops := det_parse_top x ord dp input (length (dp_regexes dp)) None in
  Ok (complete_intents (hkeys (dp_regexes dp)) (map pr_intent tops)).

(** deterministic_intent_parser.rs:184-190 *)
Definition det_get_slots (x : Ext) (ord : HashOrder) (dp : DetParser) (input intent : str)
    : outcome (list InternalSlot) :=
  if smem intent (hkeys (dp_regexes dp))
  then let* r := det_parse x ord dp input (Some [intent]) in Ok (pr_slots r)
  else Err EUnknownIntent.

(** The trait object; the hash order of each call is a function of its arguments.
    deterministic_intent_parser.rs:125-191 *)
Definition det_intent_parser (x : Ext) (ord : HashOrder) (dp : DetParser) : IntentParser :=
  mkIP (det_parse x ord dp) (det_get_intents x ord dp) (det_get_slots x ord dp).
