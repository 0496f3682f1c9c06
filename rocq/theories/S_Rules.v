(** Specification vocabulary for the answers of the rule based parsers. *)
From Coq Require Import List ZArith.
From Verif Require Import Base F32 M_Types M_Utils M_Det M_Lookup S_Base S_Utils S_Det S_Engine.
Import ListNotations.

(** The slot has a name and an entity declared for [intent] in [slots_of], and its value
    is the text of [input] at its range. *)
Definition declared_slot (slots_of : list (str * list (str * str))) (input intent : str)
    (s : InternalSlot) : Prop :=
  is_value s = substring input (is_range s) /\
  exists decls, In (intent, decls) slots_of /\ In (is_slot_name s, is_entity s) decls.

(** The range designates a part of the text. *)
Definition inside (s : str) (r : range) : Prop := rstart r <= rend r /\ rend r <= length s.

(** Contract of the entity parsers for the text [s]: entities are at non-empty ranges of the
    text.  (The parsers work on the lower-cased text, so this can fail for texts that
    change their length: see C36.) *)
Definition builtin_parser_ok (p : BuiltinParser) (s : str) : Prop :=
  forall f u n es, p s f u n = Ok es -> forall e, In e es -> wf_range (length s) (be_range e).
Definition custom_parser_ok (p : CustomParser) (s : str) : Prop :=
  forall f n es, p s f n = Ok es -> forall e, In e es -> wf_range (length s) (ce_range e).

(** The entities that the parsers of [res] find in [input], for the given scope. *)
Definition entities_found (res : Resources) (input : str) (scope : list kind * list str)
    (es : list MatchedEntity) : Prop :=
  exists bes ces,
    rs_builtin res input (Some (fst scope)) true 0 = Ok bes /\
    rs_custom res input (Some (snd scope)) 0 = Ok ces /\
    es = map (fun b => mkME (be_range b) (be_kind b)) bes
         ++ map (fun c => mkME (ce_range c) (ce_entity c)) ces.

(** In the text where the entities are replaced by placeholders, a capture group of the
    regex is exactly a placeholder or contains no part of a placeholder.  [places]: where
    the placeholders are. *)
Definition respects_placeholders (r : Regex) (text : str) (places : list range) : Prop :=
  forall caps, r text = Some caps -> forall n rg, In (n, Some rg) (skipn 1 caps) ->
    let g := convert_to_char_range text rg in
    In g places \/ forall k, In k places -> rend k <= rstart g \/ rend g <= rstart k.

(** The entity is found by the parsers of the model in the text, for a group of intents. *)
Definition detected (x : Ext) (res : Resources) (scopes : list GroupedScope) (input : str)
    (e : MatchedEntity) : Prop :=
  exists g kinds es, In g scopes /\
    Forall2 (fun id k => x_kind_of_identifier x id = Some k) (es_builtin (gs_scope g)) kinds /\
    entities_found res input (kinds, es_custom (gs_scope g)) es /\ In e es.

(** Identifiers of the lookup table are valid indices. *)
Definition valid_id {A} (l : list A) (id : Z) : Prop := (0 <= id < Z.of_nat (length l))%Z.
Definition table_ok (lp : LookupParser) : Prop :=
  forall h i ss, In (h, (i, ss)) (lp_map lp) ->
    valid_id (lp_intents_names lp) i /\
    (forall s, In s ss -> valid_id (lp_slots_names lp) s) /\
    (Z.of_nat (length ss) < 2 ^ 64)%Z.

(** The text, and what it becomes when the entities of an intent are replaced by
    placeholders, have less than 2^15 characters. *)
Definition texts_short (x : Ext) (dp : DetParser) (input : str) : Prop :=
  (Z.of_nat (length input) < 32768)%Z /\
  forall i sc es mapping formatted,
    In (i, sc) (dp_scopes dp) -> entities_found (dp_res dp) input sc es ->
    replace_entities input es (get_entity_placeholder x) = (mapping, formatted) ->
    (Z.of_nat (length formatted) < 32768)%Z.

(** The capture groups of the patterns of an intent, in the text where the entities are
    replaced by placeholders, respect the placeholders. *)
Definition patterns_aligned (x : Ext) (dp : DetParser) (input : str) : Prop :=
  forall i sc regexes r es mapping formatted cleaned,
    In (i, sc) (dp_scopes dp) -> In (i, regexes) (dp_regexes dp) -> In r regexes ->
    entities_found (dp_res dp) input sc es ->
    replace_entities input es (get_entity_placeholder x) = (mapping, formatted) ->
    det_preprocess x dp formatted i = Ok cleaned ->
    respects_placeholders r cleaned (map fst mapping).

(** The entries of the lookup table reached by the candidate texts. *)
Definition candidate_results (x : Ext) (lp : LookupParser) (input : str) (f : option (list str))
    : outcome (list InternalParsingResult) :=
  let* cands := get_candidates x lp input f in
  let* opts := mapM (lookup_candidate x lp input f) cands in
  Ok (present opts).

(** The candidate leads to an entry of the table whose identifiers are not all valid. *)
Definition bad_entry (lp : LookupParser) (f : option (list str)) (i : Z) (ss : list Z) (n : nat) : Prop :=
  ~ valid_id (lp_intents_names lp) i \/
  (exists name, index_i32 (lp_intents_names lp) i = Ok name /\
     match f with Some l => In name l | None => True end /\
     exists s, In s (firstn n ss) /\ ~ valid_id (lp_slots_names lp) s).

(** The lists of slots of the table fit in memory. *)
Definition table_countable (lp : LookupParser) : Prop :=
  forall h i ss, In (h, (i, ss)) (lp_map lp) -> (Z.of_nat (length ss) < 2 ^ 64)%Z.

