(** Specification vocabulary for the answers of an engine that was loaded from files. *)
From Coq Require Import String List NArith ZArith.
From Verif Require Import Base F32 M_Types M_Crf M_Filler M_Cache M_Fs M_Json M_Load S_Base S_Utils S_Det S_Filler.
Import ListNotations.

(** The raw text of the slot is the text of the input at the range of the slot. *)
Definition quotes (input : str) (s : Slot) : Prop := sl_raw_value s = substring input (sl_range s).

(** The lists of slots of an answer: of the main intent, and of each alternative. *)
Definition answered_slots (res : ParseResult) (slots : list Slot) : Prop :=
  slots = ps_slots res \/ exists a, In a (ps_alternatives res) /\ slots = al_slots a.

(** The taggers in the files were trained for the tagging scheme they are used with: one tag
    per token, among those of the scheme. *)
Definition taggers_trained (x : Ext) (shape : str -> str) (L : Loader)
    (fo : path -> orders) (f : fs) : Prop :=
  forall p res filler tagger, load_crf x shape L fo f p res = Ok filler -> cf_tagger filler = Some tagger ->
    tagger_ok tagger /\ tags_in_alphabet (cf_scheme filler) tagger.

(** The text that the custom entity parser analyses: the words of the lower-cased text,
    separated by single blanks. *)
Definition analysed (x : Ext) (l : lang) (input : str) : str :=
  join [space] (map tk_value (x_tokenize x l (x_lower x input))).

(** Contract of the gazetteer parser: the value of a match is the text at its range. *)
Definition gazetteer_quotes (gaz : str -> option (list str) -> nat -> outcome (list CustomEntity)) : Prop :=
  forall text kinds alts es e, gaz text kinds alts = Ok es -> In e es ->
    wf_range (length text) (ce_range e) /\ ce_value e = substring text (ce_range e).

(** Words separated by single blanks, without any other blank. *)
Definition single_blanks (text : str) (toks : list token) : Prop :=
  join [space] (map tk_value toks) = text /\
  (forall t, nth_error toks 0 = Some t -> rstart (tk_char_range t) = 0) /\
  (forall i a b, nth_error toks i = Some a -> nth_error toks (S i) = Some b ->
     rstart (tk_char_range b) = rend (tk_char_range a) + 1).

(** A text that is analysed as it is. *)
Definition plain_text (x : Ext) (l : lang) (text : str) : Prop :=
  x_lower x text = text /\ single_blanks text (x_tokenize x l text).

(** The custom entity parser of an engine, for a language and a gazetteer parser. *)
Definition custom_entities (x : Ext) (l : lang) (gaz : str -> option (list str) -> nat -> outcome (list CustomEntity))
    : CustomParser := fun text kinds alts => custom_extract x l gaz (x_lower x text) kinds alts.

(** The slot is for an entity of the dataset; otherwise it is for a builtin entity. *)
Definition custom_slot (en : Engine) (s : Slot) : Prop :=
  exists extensible, sget (sl_entity s) (ds_entities (en_dataset en)) = Some extensible.
