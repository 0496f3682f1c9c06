(** Model of src/slot_utils.rs and of the inference part of src/nlu_engine.rs. *)
From Coq Require Import List NArith ZArith Bool Arith.
From Verif Require Import Base Sorting F32 M_Types M_Utils.
Import ListNotations.

(** [vec.pop()].  src/slot_utils.rs:19-87 and nlu_engine.rs:405-510 use it. *)
Definition vec_pop {A} (l : list A) : option A := last (map Some l) None.

(** src/slot_utils.rs:89-108 *)
Definition convert_to_custom_slot (slot : InternalSlot) (resolved : str) (alts : list str) : Slot :=
  mkSlot (is_value slot) (SVCustom resolved) (map SVCustom alts)
         (is_range slot) (is_entity slot) (is_slot_name slot) None.

(** src/slot_utils.rs:110-120 *)
Definition convert_to_builtin_slot (slot : InternalSlot) (e : BuiltinEntity) : Slot :=
  mkSlot (is_value slot) (be_entity e) (be_alternatives e)
         (is_range slot) (is_entity slot) (is_slot_name slot) None.

(** src/slot_utils.rs:19-40 *)
Definition resolve_builtin_slot (x : Ext) (slot : InternalSlot)
    (entities : list BuiltinEntity) (parser : BuiltinParser) (alts : nat)
    : outcome (option Slot) :=
  let* k := ok_or EOther (x_kind_of_identifier x (is_entity slot)) in
  let* matching :=
    match find (fun e => str_eqb (be_kind e) k && range_eqb (be_range e) (is_range slot)) entities with
    | Some e => Ok (Some e)
    | None => let* found := parser (is_value slot) (Some [k]) false alts in Ok (vec_pop found)
    end in
  Ok (option_map (convert_to_builtin_slot slot) matching).

(** src/slot_utils.rs:42-87; [extensible] is [entity.automatically_extensible]. *)
Definition resolve_custom_slot (slot : InternalSlot) (extensible : bool)
    (entities : list CustomEntity) (parser : CustomParser) (alts : nat)
    : outcome (option Slot) :=
  let* matching :=
    match find (fun e => str_eqb (ce_entity e) (is_entity slot)
                         && range_eqb (ce_range e) (is_range slot)) entities with
    | Some e => Ok (Some e)
    | None =>
        let* found := parser (is_value slot) (Some [is_entity slot]) alts in
        Ok (match vec_pop found with
            | Some e => if length (ce_value e) =? length (is_value slot) then Some e else None
            | None => None
            end)
    end in
  let resolved :=
    match matching with
    | Some e => Some (ce_resolved e, ce_alternatives e)
    | None => if extensible then Some (is_value slot, []) else None
    end in
  Ok (option_map (fun ra => convert_to_custom_slot slot (fst ra) (snd ra)) resolved).

(** [slots.iter().filter_map(..)].  nlu_engine.rs:331-393 uses it. *)
Fixpoint filter_map {A B} (f : A -> option B) (l : list A) : list B :=
  match l with
  | [] => []
  | a :: r => match f a with Some b => b :: filter_map f r | None => filter_map f r end
  end.

(** src/nlu_engine.rs:363-391, resolution of one slot inside the loop. *)
Definition resolve_slot (x : Ext) (en : Engine) (bes : list BuiltinEntity)
    (ces : list CustomEntity) (alts : nat) (slot : InternalSlot) : outcome (option Slot) :=
  match sget (is_entity slot) (ds_entities (en_dataset en)) with
  | Some ext => resolve_custom_slot slot ext ces (rs_custom (en_resources en)) alts
  | None => resolve_builtin_slot x slot bes (rs_builtin (en_resources en)) alts
  end.

(** src/nlu_engine.rs:331-392 *)
Definition resolve_slots (x : Ext) (en : Engine) (text : str) (slots : list InternalSlot)
    (alts : nat) : outcome (list Slot) :=
  match slots with
  | [] => Ok []
  | _ =>
      let builtin_scope := filter_map (fun s => x_kind_from_str x (is_entity s)) slots in
      let custom_scope :=
        filter_map (fun s => match x_kind_from_str x (is_entity s) with
                             | Some _ => None | None => Some (is_entity s) end) slots in
      let* bes := rs_builtin (en_resources en) text (Some builtin_scope) false alts in
      let* ces := rs_custom (en_resources en) text (Some custom_scope) alts in
      let* opts := mapM (resolve_slot x en bes ces alts) slots in
      Ok (filter_map (fun o => o) opts)
  end.

(** src/nlu_engine.rs:244-249, [all_intents]. *)
Definition all_intents (en : Engine) : list str :=
  hkeys (ds_slot_name_mappings (en_dataset en)).

(** src/nlu_engine.rs:236-279. [ord] is the iteration order of the set [all_intents]. *)
Definition get_intents_whitelist (ord : HashOrder) (en : Engine)
    (whitelist blacklist : option (list str)) : outcome (option (list str)) :=
  let all := reorder ord (all_intents en) in
  let named := (match whitelist with Some w => w | None => [] end)
               ++ (match blacklist with Some b => b | None => [] end) in
  match find (fun i => negb (smem i all)) named with
  | Some _ => Err EOther
  | None =>
      let reverted := option_map (fun b => filter (fun i => negb (smem i b)) all) blacklist in
      Ok (match whitelist with
          | Some w => match reverted with
                      | Some rev_w => Some (intersect str_eqb rev_w w)
                      | None => Some w
                      end
          | None => reverted
          end)
  end.

(** src/nlu_engine.rs:161-199: the loop over the parsers, and the default result. *)
Fixpoint parse_loop (x : Ext) (en : Engine) (input : str) (wl : option (list str))
    (salts : nat) (none_score : f32) (parsers : list IntentParser) : outcome ParseResult :=
  match parsers with
  | [] => Ok (mkPR input (mkIR None none_score) [] [])
  | p :: rest =>
      let* r := ip_parse p input wl in
      match ir_name (pr_intent r) with
      | Some _ =>
          let* slots := resolve_slots x en input (pr_slots r) salts in
          Ok (mkPR input (pr_intent r) slots [])
      | None => parse_loop x en input wl salts (ir_score (pr_intent r)) rest
      end
  end.

(** Equality of the keys of the map of nlu_engine.rs:283. *)
Definition opt_str_eqb (a b : option str) : bool :=
  match a, b with
  | Some s, Some t => str_eqb s t
  | None, None => true
  | _, _ => false
  end.

(** src/nlu_engine.rs:287-292: first results, inserted one after the other. *)
Definition merge_first (l : list IntentResult) : list (option str * IntentResult) :=
  hcollect opt_str_eqb (map (fun r => (ir_name r, r)) l).

(** src/nlu_engine.rs:293-304: one result of a later parser. *)
Definition merge_one (m : list (option str * IntentResult)) (r : IntentResult)
    : list (option str * IntentResult) :=
  let existing := match hget opt_str_eqb (ir_name r) m with
                  | Some e => ir_score e | None => f0 end in
  if flt existing (ir_score r)
  then match hget opt_str_eqb (ir_name r) m with
       | Some e => hinsert opt_str_eqb (ir_name r) (mkIR (ir_name e) (ir_score r)) m
       | None => hinsert opt_str_eqb (ir_name r) r m
       end
  else m.

(** src/nlu_engine.rs:284-305, the loop. *)
Fixpoint merge_intents (input : str) (parsers : list IntentParser)
    (m : list (option str * IntentResult)) : outcome (list (option str * IntentResult)) :=
  match parsers with
  | [] => Ok m
  | p :: rest =>
      let* l := ip_get_intents p input in
      merge_intents input rest
        (match m with [] => merge_first l | _ => fold_left merge_one l m end)
  end.

(** src/nlu_engine.rs:281-310 *)
Definition get_intents (ord : HashOrder) (en : Engine) (input : str) : outcome (list IntentResult) :=
  let* m := merge_intents input (en_parsers en) [] in
  sort_desc ir_score (map snd (reorder ord m)).

(** src/nlu_engine.rs:316-329 *)
Fixpoint get_slots_loop (x : Ext) (en : Engine) (input intent : str) (salts : nat)
    (parsers : list IntentParser) : outcome (list Slot) :=
  match parsers with
  | [] => Ok []
  | p :: rest =>
      let* slots := ip_get_slots p input intent in
      match slots with
      | [] => get_slots_loop x en input intent salts rest
      | _ => resolve_slots x en input slots salts
      end
  end.

(** nlu_engine.rs:316-329 *)
Definition get_slots_with_alternatives (x : Ext) (en : Engine) (input intent : str) (salts : nat)
    : outcome (list Slot) :=
  get_slots_loop x en input intent salts (en_parsers en).

(** src/nlu_engine.rs:312-314 *)
Definition get_slots (x : Ext) (en : Engine) (input intent : str) : outcome (list Slot) :=
  get_slots_with_alternatives x en input intent 0.

(** src/nlu_engine.rs:207-216: filter applied to the listed intents. *)
Definition passes_filter (wl : option (list str)) (r : IntentResult) : bool :=
  match ir_name r with
  | Some name => match wl with Some w => smem name w | None => true end
  | None => true
  end.

(** src/nlu_engine.rs:219-230: slots of one alternative. *)
Definition alternative_of (x : Ext) (en : Engine) (input : str) (salts : nat) (r : IntentResult)
    : outcome Alternative :=
  let* slots := match ir_name r with
                | Some name => get_slots_with_alternatives x en input name salts
                | None => Ok []
                end in
  Ok (mkAlt r slots).

(** src/nlu_engine.rs:147-234.  [ord1] and [ord2] are the iteration orders of the two
    hash tables built during the call. *)
Definition parse_with_alternatives (x : Ext) (ord1 ord2 : HashOrder) (en : Engine) (input : str)
    (whitelist blacklist : option (list str)) (ialts salts : nat) : outcome ParseResult :=
  let* wl := get_intents_whitelist ord1 en whitelist blacklist in
  let* res := parse_loop x en input wl salts f0 (en_parsers en) in
  if ialts =? 0 then Ok res
  else
    let* intents := get_intents ord2 en input in
    let* alts := mapM (alternative_of x en input salts)
                      (firstn ialts (skipn 1 (filter (passes_filter wl) intents))) in
    Ok (mkPR (ps_input res) (ps_intent res) (ps_slots res) alts).

(** src/nlu_engine.rs:134-145 *)
Definition parse (x : Ext) (ord1 ord2 : HashOrder) (en : Engine) (input : str)
    (whitelist blacklist : option (list str)) : outcome ParseResult :=
  parse_with_alternatives x ord1 ord2 en input whitelist blacklist 0 0.

(** src/nlu_engine.rs:442-483 *)
Definition extract_custom_slot (input entity_name slot_name : str) (extensible : bool)
    (parser : CustomParser) (salts : nat) : outcome (option Slot) :=
  let* es := parser input (Some [entity_name]) salts in
  Ok (match vec_pop es with
      | Some e => Some (mkSlot (ce_value e) (SVCustom (ce_resolved e))
                               (map SVCustom (ce_alternatives e)) (ce_range e)
                               entity_name slot_name None)
      | None => if extensible
                then Some (mkSlot input (SVCustom input) [] (0, length input)
                                  entity_name slot_name None)
                else None
      end).

(** src/nlu_engine.rs:485-511 *)
Definition extract_builtin_slot (x : Ext) (input entity_name slot_name : str)
    (parser : BuiltinParser) (salts : nat) : outcome (option Slot) :=
  let* k := ok_or EOther (x_kind_of_identifier x entity_name) in
  let* es := parser input (Some [k]) false salts in
  Ok (option_map (fun e => mkSlot (substring input (be_range e)) (be_entity e)
                                  (be_alternatives e) (be_range e) entity_name slot_name None)
                 (hd_error es)).

(** src/nlu_engine.rs:405-440 *)
Definition extract_slot_with_alternatives (x : Ext) (en : Engine) (input intent slot_name : str)
    (salts : nat) : outcome (option Slot) :=
  let* mapping := ok_or EOther (sget intent (ds_slot_name_mappings (en_dataset en))) in
  let* entity := ok_or EOther (sget slot_name mapping) in
  match sget entity (ds_entities (en_dataset en)) with
  | Some ext => extract_custom_slot input entity slot_name ext (rs_custom (en_resources en)) salts
  | None => extract_builtin_slot x input entity slot_name (rs_builtin (en_resources en)) salts
  end.

(** src/nlu_engine.rs:396-403 *)
Definition extract_slot (x : Ext) (en : Engine) (input intent slot_name : str) : outcome (option Slot) :=
  extract_slot_with_alternatives x en input intent slot_name 0.
