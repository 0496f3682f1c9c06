(** Specification vocabulary for C83: texts that differ by the case of letters only. *)
From Coq Require Import String List NArith ZArith.
From Verif Require Import Base F32 M_Types M_Engine M_Det M_Lookup M_Features M_Filler M_Fs M_Json M_Load S_Load S_Match S_Made S_Seeds.
Import ListNotations.

(** The same letter, up to case: same lower case, same number of bytes.  The capital sigma
    (code point 931) is left out: its lower case depends on the letters around it. *)
Definition same_letter (x : Ext) (c c' : char) : Prop :=
  c = c' \/ (x_lower x [c] = x_lower x [c'] /\ utf8_len c = utf8_len c' /\ c <> 931%N /\ c' <> 931%N).
Definition same_text (x : Ext) : str -> str -> Prop := Forall2 (same_letter x).

(** Contract of the external libraries: lower-casing and normalizing (which lower-cases)
    forget the case; tokenizers and n-grams cut texts at the same places; digits have no
    case; regular expressions are compiled with the option "case insensitive"
    (deterministic_intent_parser.rs:376-378), which only a flag in the pattern can undo. *)
Definition sets_no_flag (pattern : str) : Prop :=
  forall a c b, pattern = a ++ $"(?" ++ c :: b -> c = 80%N \/ c = 58%N.   (* "(?P<" or "(?:" *)
Definition case_blind (x : Ext) (ngrams : list str -> nat -> list str) (L : Loader) : Prop :=
  (forall s s', same_text x s s' -> x_lower x s = x_lower x s') /\
  (forall s s', same_text x s s' -> x_normalize x s = x_normalize x s') /\
  (forall l s s', same_text x s s' ->
     Forall2 (fun t t' => tk_range t = tk_range t' /\ tk_char_range t = tk_char_range t' /\ same_text x (tk_value t) (tk_value t'))
             (x_tokenize x l s) (x_tokenize x l s')) /\
  (forall l s s', same_text x s s' -> Forall2 (same_text x) (x_tokenize_light x l s) (x_tokenize_light x l s')) /\
  (forall ws ws' n, Forall2 (same_text x) ws ws' -> Forall2 (same_text x) (ngrams ws n) (ngrams ws' n)) /\
  (forall c c', same_letter x c c' -> (48 <= c <= 57)%N -> c = c') /\
  (forall pattern re s s', sets_no_flag pattern -> ld_regex L pattern = Ok re -> same_text x s s' -> re s = re s').

(** The two texts have the same answer up to [R]: both fail in the same way, or both succeed
    with values related by [R]. *)
Definition same_out {A} (R : A -> A -> Prop) (m m' : outcome A) : Prop :=
  match m, m' with
  | Ok a, Ok a' => R a a'
  | Err e, Err e' => e = e'
  | Panic, Panic => True
  | _, _ => False
  end.

(** Both have a value, related by [R], or none has. *)
Definition opt_rel {A} (R : A -> A -> Prop) (o o' : option A) : Prop :=
  match o, o' with Some a, Some a' => R a a' | None, None => True | _, _ => False end.

(** The same slot: only the text of the user may differ, by its case.  The value is the text
    of the user when it was not resolved (values outside an extensible entity). *)
Definition same_slot (x : Ext) (s s' : Slot) : Prop :=
  sl_range s = sl_range s' /\ sl_entity s = sl_entity s' /\ sl_slot_name s = sl_slot_name s' /\
  sl_confidence s = sl_confidence s' /\ sl_alternatives s = sl_alternatives s' /\
  same_text x (sl_raw_value s) (sl_raw_value s') /\
  (sl_value s = sl_value s' \/
   (sl_value s = SVCustom (sl_raw_value s) /\ sl_value s' = SVCustom (sl_raw_value s'))).
Definition same_alternative (x : Ext) (a a' : Alternative) : Prop :=
  al_intent a = al_intent a' /\ Forall2 (same_slot x) (al_slots a) (al_slots a').
Definition same_answer (x : Ext) (r r' : ParseResult) : Prop :=
  same_text x (ps_input r) (ps_input r') /\ ps_intent r = ps_intent r' /\
  Forall2 (same_slot x) (ps_slots r) (ps_slots r') /\
  Forall2 (same_alternative x) (ps_alternatives r) (ps_alternatives r').

(** Directories inside another one. *)
Definition below (p q : path) : Prop := exists names, q = fold_left pjoin names p.
(** No classifier of the directory uses cooccurrences of words. *)
Definition no_cooccurrences (L : Loader) (fo : path -> orders) (f : fs) (p : path) : Prop :=
  forall q m, below p q -> file_says L fo f q $"featurizer.json" (fun _ => d_featurizer) m -> snd m = None.
(** No slot filler of the directory uses the shapes of words. *)
Definition no_shapes (L : Loader) (fo : path -> orders) (f : fs) (p : path) : Prop :=
  forall q m, below p q -> file_says L fo f q $"slot_filler.json" d_filler m ->
    ~ In $"shape_ngram" (map ff_name (sm_factories m)).
(** No pattern of the directory sets a flag. *)
Definition no_flags (L : Loader) (fo : path -> orders) (f : fs) (p : path) : Prop :=
  forall q m i patterns pattern, below p q -> rules_at L fo f q (Patterns m) ->
    In (i, patterns) (dm_patterns m) -> In pattern patterns -> sets_no_flag pattern.

(** No table of the engine was taught the text for more than two allowed intents: see C82,
    the order of a hash table decides otherwise. *)
Definition tables_hardly_ambiguous (x : Ext) (L : Loader) (fo : path -> orders) (f : fs) (p : path) (m : EngineModel)
    (res : Resources) (input : str) (filter : option (list str)) : Prop :=
  forall name t, In name (em_parsers m) -> rules_at L fo f (pjoin p name) (Table t) ->
    at_most_two (fun i => exists slots, understood x L res input filter (Table t) i slots).
(** The tables have a reasonable size. *)
Definition small_tables (L : Loader) (fo : path -> orders) (f : fs) (p : path) (m : EngineModel) : Prop :=
  forall name t, In name (em_parsers m) -> rules_at L fo f (pjoin p name) (Table t) -> small_table t.
