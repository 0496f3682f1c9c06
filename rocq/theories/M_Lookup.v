(** Model of src/intent_parser/lookup_intent_parser.rs. *)
From Coq Require Import String List NArith ZArith Bool Arith.
From Verif Require Import Base Sorting F32 M_Types M_Utils M_Engine M_Det.
Import ListNotations.

(** src/models/intent_parser.rs:33-43 *)
Record EntityScope := mkES { es_builtin : list str; es_custom : list str }.
(** src/models/intent_parser.rs:39-43 *)
Record GroupedScope := mkGS { gs_intents : list str; gs_scope : EntityScope }.

(** src/models/intent_parser.rs:22-31 *)
Record LookupModel := mkLM {
  lm_language : str;
  lm_slots_names : list str;
  lm_intents_names : list str;
  lm_map : list (Z * (Z * list Z));
  lm_scopes : list GroupedScope;
  lm_stop_whitelist : list (str * list str);
  lm_ignore_stop_words : bool
}.

(** lookup_intent_parser.rs:30-39.  [lp_map] maps i32 hashes to i32 identifiers. *)
Record LookupParser := mkLP {
  lp_lang : lang;
  lp_slots_names : list str;
  lp_intents_names : list str;
  lp_map : list (Z * (Z * list Z));
  lp_stop : list str;
  lp_specific_stop : list (str * list str);
  lp_scopes : list GroupedScope;
  lp_res : Resources
}.

(** lookup_intent_parser.rs:62-92 *)
Definition lookup_new (lang_of : str -> option lang) (o : HashOrder) (m : LookupModel) (res : Resources)
    : outcome LookupParser :=
  let* l := ok_or EOther (lang_of (lm_language m)) in
  let stop := if lm_ignore_stop_words m then rs_stop_words res else [] in
  Ok (mkLP l (lm_slots_names m) (lm_intents_names m) (lm_map m) stop
           (reorder o (specific_stop_words stop (lm_stop_whitelist m))) (lm_scopes m) res).

(** lookup_intent_parser.rs:330-342 *)
Definition lookup_preprocess (x : Ext) (lp : LookupParser) (s intent : str) : str :=
  let stop := stop_words_of (lp_stop lp) (lp_specific_stop lp) intent in
  x_lower x (join [space] (filter (fun t => negb (smem (x_normalize x t) stop))
                                  (x_tokenize_light x (lp_lang lp) s))).

(** lookup_intent_parser.rs:354-372; the loop from [cur_idx]. *)
Fixpoint replace_loop (x : Ext) (text : str) (cur : nat) (es : list MatchedEntity) : str :=
  match es with
  | [] => suffix_from text cur
  | e :: r => substring text (cur, rstart (me_range e))
              ++ get_entity_placeholder x (me_name e)
              ++ replace_loop x text (rend (me_range e)) r
  end.
(** lookup_intent_parser.rs:354-372 *)
Definition replace_entities_with_placeholders (x : Ext) (text : str) (es : list MatchedEntity) : str :=
  match es with [] => text | _ => replace_loop x text 0 es end.

(** [itertools::combinations(k)]: lexicographic in the indices.  External; used in
    lookup_intent_parser.rs:374-384. *)
Fixpoint combinations {A} (k : nat) (l : list A) : list (list A) :=
  match k, l with
  | 0, _ => [[]]
  | S k', [] => []
  | S k', a :: r => map (cons a) (combinations k' r) ++ combinations k r
  end.

(** lookup_intent_parser.rs:374-384 *)
Definition get_items_combinations {A} (items : list A) : list (list A) :=
  [] :: flat_map (fun k => combinations k items) (rev (seq 1 (length items))).

(** lookup_intent_parser.rs:255-286 *)
Definition get_all_entities (x : Ext) (lp : LookupParser) (input : str) (sc : EntityScope)
    : outcome (list MatchedEntity) :=
  let* kinds := mapM (fun i => ok_or EOther (x_kind_of_identifier x i)) (es_builtin sc) in
  let* bes := rs_builtin (lp_res lp) input (Some kinds) true 0 in
  let* ces := rs_custom (lp_res lp) input (Some (es_custom sc)) 0 in
  Ok (deduplicate_overlapping_entities (map matched_of_builtin bes ++ map matched_of_custom ces)).

(** lookup_intent_parser.rs:223 *)
Definition candidate := (str * list MatchedEntity)%type.
(** Equality of candidates, for [unique] in lookup_intent_parser.rs:252. *)
Definition candidate_eqb (a b : candidate) : bool :=
  str_eqb (fst a) (fst b) && list_eqb me_eqb (snd a) (snd b).

(** Intents of the group allowed by the whitelist.  lookup_intent_parser.rs:226-234 *)
Definition allowed_group (intents : option (list str)) (g : list str) : list str :=
  filter (fun i => match intents with Some w => smem i w | None => true end) g.

(** lookup_intent_parser.rs:225-250: candidates of one group of intents. *)
Definition group_candidates (x : Ext) (lp : LookupParser) (input : str) (intents : option (list str))
    (g : GroupedScope) : outcome (list candidate) :=
  match allowed_group intents (gs_intents g) with
  | [] => Ok []
  | group =>
      let* all := get_all_entities x lp input (gs_scope g) in
      Ok (flat_map (fun es =>
            let processed := replace_entities_with_placeholders x input es in
            flat_map (fun i => [(lookup_preprocess x lp input i, []);
                                (lookup_preprocess x lp processed i, es)]) group)
            (get_items_combinations all))
  end.

(** lookup_intent_parser.rs:219-253 *)
Definition get_candidates (x : Ext) (lp : LookupParser) (input : str) (intents : option (list str))
    : outcome (list candidate) :=
  let* ls := mapM (group_candidates x lp input intents) (lp_scopes lp) in
  Ok (unique candidate_eqb (concat ls)).

(** [v[id as usize]] for an i32 [id]: a negative one becomes an index of at least 2^63,
    larger than any length, and panics.  lookup_intent_parser.rs:288-327 uses it. *)
Definition index_i32 {A} (l : list A) (id : Z) : outcome A :=
  if (id <? 0)%Z then Panic else index l (Z.to_nat id).

(** lookup_intent_parser.rs:288-327, release build ([debug_assert] is not checked). *)
Definition parse_map_output (lp : LookupParser) (input : str) (output : Z * list Z)
    (es : list MatchedEntity) (intents : option (list str)) : outcome (option InternalParsingResult) :=
  let* intent_name := index_i32 (lp_intents_names lp) (fst output) in
  if match intents with Some l => smem intent_name l | None => true end
  then let* slots := mapM (fun se =>
                       let* slot_name := index_i32 (lp_slots_names lp) (fst se) in
                       Ok (mkIS (substring input (me_range (snd se))) (me_range (snd se))
                                (me_name (snd se)) slot_name))
                     (combine (snd output) es) in
       Ok (Some (mkIPR (mkIR (Some intent_name) f1) slots))
  else Ok None.

(** One candidate.  lookup_intent_parser.rs:171-177 *)
Definition lookup_candidate (x : Ext) (lp : LookupParser) (input : str) (intents : option (list str))
    (c : candidate) : outcome (option InternalParsingResult) :=
  match hget Z.eqb (x_hash x (fst c)) (lp_map lp) with
  | Some output => parse_map_output lp input output (snd c) intents
  | None => Ok None
  end.

(** [entry(..).and_modify(push).or_insert(vec![..])].  lookup_intent_parser.rs:178-183 *)
Fixpoint group_add (k : str) (r : InternalParsingResult)
    (m : list (str * list InternalParsingResult)) : list (str * list InternalParsingResult) :=
  match m with
  | [] => [(k, [r])]
  | (k', rs) :: rest => if str_eqb k k' then (k', rs ++ [r]) :: rest
                        else (k', rs) :: group_add k r rest
  end.

(** lookup_intent_parser.rs:170-185 *)
Definition group_results (rs : list InternalParsingResult) : list (str * list InternalParsingResult) :=
  fold_left (fun m r => match ir_name (pr_intent r) with
                        | Some i => group_add i r m
                        | None => m
                        end) rs [].

(** [max_by] on the weight: the last of the maximal elements.  lookup_intent_parser.rs:189-197 *)
Definition last_max (rs : list InternalParsingResult) : option InternalParsingResult :=
  fold_left (fun best r => match best with
                           | None => Some r
                           | Some b => if fle (result_weight b) (result_weight r) then Some r else Some b
                           end) rs None.

(** Best result of each intent, in the order [ord] of the map.  lookup_intent_parser.rs:169-199 *)
Definition lookup_matches (x : Ext) (ord : HashOrder) (lp : LookupParser) (input : str)
    (intents : option (list str)) : outcome (list InternalParsingResult) :=
  let* cands := get_candidates x lp input intents in
  let* opts := mapM (lookup_candidate x lp input intents) cands in
  Ok (filter_map (fun kv => last_max (snd kv)) (reorder ord (group_results (filter_map (fun o => o) opts)))).

(** lookup_intent_parser.rs:164-217 *)
Definition lookup_parse_top (x : Ext) (ord : HashOrder) (lp : LookupParser) (input : str) (top_n : nat)
    (intents : option (list str)) : outcome (list InternalParsingResult) :=
  let* results := lookup_matches x ord lp input intents in
  rank_results top_n results.

(** lookup_intent_parser.rs:96-124 *)
Definition lookup_parse (x : Ext) (ord : HashOrder) (lp : LookupParser) (input : str)
    (intents : option (list str)) : outcome InternalParsingResult :=
  let* tops := lookup_parse_top x ord lp input 1 intents in
  Ok (answer_of tops).

(** lookup_intent_parser.rs:126-152 *)
Definition lookup_get_intents (x : Ext) (ord : HashOrder) (lp : LookupParser) (input : str)
    : outcome (list IntentResult) :=
  let* tops := lookup_parse_top x ord lp input (length (lp_intents_names lp)) None in
  Ok (complete_intents (lp_intents_names lp) (map pr_intent tops)).

(** lookup_intent_parser.rs:154-160 *)
Definition lookup_get_slots (x : Ext) (ord : HashOrder) (lp : LookupParser) (input intent : str)
    : outcome (list InternalSlot) :=
  if smem intent (lp_intents_names lp)
  then let* r := lookup_parse x ord lp input (Some [intent]) in Ok (pr_slots r)
  else Err EUnknownIntent.

(** lookup_intent_parser.rs:95-161 *)
Definition lookup_intent_parser (x : Ext) (ord : HashOrder) (lp : LookupParser) : IntentParser :=
  mkIP (lookup_parse x ord lp) (lookup_get_intents x ord lp) (lookup_get_slots x ord lp).
