(** Specification vocabulary for the engine properties. *)
From Coq Require Import List.
From Verif Require Import Base F32 M_Types.
Import ListNotations.

(** An intent allowed by the caller's filters. *)
Definition allowed (whitelist blacklist : option (list str)) (i : str) : Prop :=
  (forall l, whitelist = Some l -> In i l) /\ (forall l, blacklist = Some l -> ~ In i l).

(** The dataset's intents. *)
Definition known (en : Engine) (i : str) : Prop :=
  exists mapping, In (i, mapping) (ds_slot_name_mappings (en_dataset en)).

(** A caller-given list names only known intents. *)
Definition names_known (en : Engine) (o : option (list str)) : Prop :=
  forall l i, o = Some l -> In i l -> known en i.

(** A parser that never answers an intent outside of the list it was restricted to. *)
Definition honours_filter (p : IntentParser) : Prop :=
  forall input l r i,
    ip_parse p input (Some l) = Ok r -> ir_name (pr_intent r) = Some i -> In i l.

(** Parser [p] finds no intent, with confidence [sc]. *)
Definition finds_nothing (p : IntentParser) (input : str) (wl : option (list str)) (sc : f32) : Prop :=
  exists slots, ip_parse p input wl = Ok (mkIPR (mkIR None sc) slots).

(** A resolved slot that says the same as the parser's slot, plus a value. *)
Definition resolves (i : InternalSlot) (s : Slot) : Prop :=
  sl_raw_value s = is_value i /\ sl_range s = is_range i /\
  sl_entity s = is_entity i /\ sl_slot_name s = is_slot_name i.

(** The set of intents an effective filter lets through: [None] is no restriction. *)
Definition lets_through (filter : option (list str)) (i : str) : Prop :=
  match filter with None => True | Some l => In i l end.

(** A listed intent the filters let through; the null intent always is. *)
Definition admissible (en : Engine) (whitelist blacklist : option (list str)) (r : IntentResult) : Prop :=
  forall i, ir_name r = Some i ->
    (whitelist = None /\ blacklist = None) \/ (known en i /\ allowed whitelist blacklist i).

(** Non-increasing confidence. *)
Definition best_first (l : list IntentResult) : Prop :=
  forall i j a b, i < j -> nth_error l i = Some a -> nth_error l j = Some b ->
                  fle (ir_score b) (ir_score a) = true.

(** An entity of the slot's kind was found exactly at the slot's range. *)
Definition found_at_range (es : list CustomEntity) (s : InternalSlot) (e : CustomEntity) : Prop :=
  In e es /\ ce_entity e = is_entity s /\ ce_range e = is_range s.

(** The entity parser, run on the slot's text alone, has a last match, and it
    covers all the characters. *)
Definition matches_whole_slot (parser : CustomParser) (alts : nat) (s : InternalSlot) (e : CustomEntity) : Prop :=
  exists before, parser (is_value s) (Some [is_entity s]) alts = Ok (before ++ [e]) /\
                 length (ce_value e) = length (is_value s).

(** Elements present in a list of options, in order. *)
Definition present {A} (l : list (option A)) : list A :=
  flat_map (fun o => match o with Some a => [a] | None => [] end) l.

(** [e] is the first element of [es] of which [P] holds. *)
Definition first_such {A} (P : A -> Prop) (es : list A) (e : A) : Prop :=
  exists before after, es = before ++ e :: after /\ P e /\ forall b, In b before -> ~ P b.

(** Same entity and same character range as the slot, for custom and builtin entities. *)
Definition custom_at (s : InternalSlot) (e : CustomEntity) : Prop :=
  ce_entity e = is_entity s /\ ce_range e = is_range s.
Definition builtin_at (k : str) (s : InternalSlot) (e : BuiltinEntity) : Prop :=
  be_kind e = k /\ be_range e = is_range s.

(** The parser's slot, with a value and alternatives. *)
Definition with_value (i : InternalSlot) (v : slot_value) (alts : list slot_value) : Slot :=
  mkSlot (is_value i) v alts (is_range i) (is_entity i) (is_slot_name i) None.
