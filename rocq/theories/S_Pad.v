(** Specification vocabulary for C90: blanks before and after a text. *)
From Coq Require Import String List NArith ZArith.
From Verif Require Import Base F32 M_Types M_Utils M_Engine M_Det M_Lookup M_Fs M_Json M_Load S_Base S_Utils S_Det S_Rules S_Match S_Made S_Seeds S_Case.
Import ListNotations.
Local Open Scope list_scope.
Local Open Scope nat_scope.

(** The text with [n] blanks before and [k] blanks after it. *)
Definition padded (n k : nat) (s : str) : str := repeat 32%N n ++ s ++ repeat 32%N k.

(** The same place, [n] characters further. *)
Definition moved (n : nat) (r : range) : range := (n + rstart r, n + rend r).
Definition moved_token (n : nat) (t : token) : token :=
  mkTok (tk_value t) (moved n (tk_range t)) (moved n (tk_char_range t)).
Definition moved_entity (n : nat) (e : BuiltinEntity) : BuiltinEntity :=
  mkBE (be_value e) (moved n (be_range e)) (be_entity e) (be_alternatives e) (be_kind e).
Definition moved_group (n : nat) (g : option str * option range) : option str * option range :=
  (fst g, option_map (moved n) (snd g)).
Definition moved_slot (n : nat) (s : Slot) : Slot :=
  mkSlot (sl_raw_value s) (sl_value s) (sl_alternatives s) (moved n (sl_range s)) (sl_entity s) (sl_slot_name s) (sl_confidence s).
(** The answer for the text with blanks around it. *)
Definition moved_answer (n k : nat) (r : ParseResult) : ParseResult :=
  mkPR (padded n k (ps_input r)) (ps_intent r) (map (moved_slot n) (ps_slots r))
       (map (fun a => mkAlt (al_intent a) (map (moved_slot n) (al_slots a))) (ps_alternatives r)).

(** The slot that is the whole text. *)
Definition whole_text (s entity slot : str) : Slot :=
  mkSlot s (SVCustom s) [] (0, length s) entity slot None.

(** The same outcome, but for the value. *)
Definition on_ok {A B} (g : A -> B) (m : outcome A) : outcome B :=
  match m with Ok a => Ok (g a) | Err e => Err e | Panic => Panic end.

(** Contract of the external libraries: blanks around a text are no part of a token nor of a
    builtin entity, and have no case. *)
Definition margin_blind (x : Ext) (L : Loader) : Prop :=
  forall n k s,
  x_lower x (padded n k s) = padded n k (x_lower x s) /\
  (forall l, x_tokenize x l (padded n k s) = map (moved_token n) (x_tokenize x l s)) /\
  (forall l, x_tokenize_light x l (padded n k s) = x_tokenize_light x l s) /\
  (forall f p parser kinds alts, ld_builtin L f p = Ok parser ->
     parser (padded n k s) kinds alts = on_ok (map (moved_entity n)) (parser s kinds alts)).

(** Blanks around a text do not matter to a regular expression: the same groups are captured
    (the first one, the whole match, may contain the blanks).  A pattern such as
    "^\s*turn on the (?P<room>...)\s*$" is like this. *)
Definition allows_margins (re : Regex) : Prop :=
  regex_ok re /\
  forall n k s, match re s, re (padded n k s) with
                | Some caps, Some caps' => skipn 1 caps' = map (moved_group n) (skipn 1 caps)
                | None, None => True
                | _, _ => False
                end.
(** The patterns [m] allow blanks around a text.  In this text, with placeholders in it, a group
    is a placeholder or contains no part of a placeholder. *)
Definition patterns_allow_margins (x : Ext) (L : Loader) (res : Resources) (input : str) (m : DetModel) : Prop :=
  forall i patterns pattern re, In (i, patterns) (dm_patterns m) -> In pattern patterns -> ld_regex L pattern = Ok re ->
  allows_margins re /\
  forall l decls kept text, ld_lang L (dm_language m) = Some l ->
    In (i, decls) (dm_slots m) -> intent_entities x res input decls kept ->
    cleaned x l (ignored (dm_ignore_stop_words m) res (dm_stop_whitelist m) i) (with_placeholders x input kept) text ->
    respects_placeholders re text
      (map fst (edit_positions 0 0 (map (fun e => (me_range e, placeholder x (me_name e))) kept))).
(** The rules of the engine allow blanks around this text; the text with the blanks has a
    reasonable size. *)
Definition rules_allow_margins (x : Ext) (L : Loader) (fo : path -> orders) (f : fs) (p : path) (m : EngineModel)
    (res : Resources) (n k : nat) (input : str) : Prop :=
  forall name r, In name (em_parsers m) -> rules_at L fo f (pjoin p name) r ->
    of_reasonable_size x res (padded n k input) r /\
    match r with Patterns dm => patterns_allow_margins x L res input dm | Table _ => True end.
