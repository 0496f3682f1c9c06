(** Specification vocabulary for C77: the layout of the directory of an engine, and what its
    rule based parsers were taught. *)
From Coq Require Import String List NArith ZArith.
From Verif Require Import Base F32 M_Types M_Engine M_Det M_Lookup M_Feat M_Prob M_Features M_Filler M_Cache M_Res M_Fs M_Json M_Load
  M_Inject S_Base S_Utils S_Det S_Rules S_Load S_Match S_Inject.
Import ListNotations.

(** ** The layout.  [decodes L f p d a]: the file at [p] is a json document that means [a] (C76). *)
Section Layout.
  Context (x : Ext) (shape : str -> str) (ngrams : list str -> nat -> list str) (mx : Math) (L : Loader)
          (fo : path -> orders) (uo : path -> nat -> HashOrder) (f : fs) (res : Resources).

  (** The file [name] of the directory [p], with the orders of its maps. *)
  Definition file_says {A} (p : path) (name : str) (d : orders -> decoder A) (a : A) : Prop :=
    decodes L f (pjoin p name) (d (fo (pjoin p name))) a.
  Definition unit_at (p : path) (u : unit_name) : Prop := file_says p $"metadata.json" (fun _ => d_unit) u.

  Definition tfidf_at (p : path) (t : Tfidf) : Prop :=
    exists m, file_says p $"vectorizer.json" (d_tfidf (ld_f32 L)) m /\ tfidf_new x (ld_lang L) m res = Ok t.
  Definition cooc_at (p : path) (c : Cooc) : Prop :=
    exists m, file_says p $"vectorizer.json" d_cooccurrence m /\ cooc_new x (ld_lang L) m res = Ok c.
  Definition featurizer_at (p : path) (fz : Featurizer) : Prop :=
    exists m, file_says p $"featurizer.json" (fun _ => d_featurizer) m /\
      tfidf_at (pjoin p (fst m)) (fz_tfidf fz) /\
      match snd m with
      | Some name => exists c, fz_cooc fz = Some c /\ cooc_at (pjoin p name) c
      | None => fz_cooc fz = None
      end.

  (** A classifier has features when its document names a featurizer, and coefficients when
      its document has both an intercept and coefficients. *)
  Definition classifier_at (p : path) (c : Classifier) : Prop :=
    exists m, file_says p $"intent_classifier.json" (fun _ => d_classifier (ld_f32 L)) m /\ cl_intents c = clm_intents m /\
      match clm_featurizer m with
      | Some name => exists fz, featurizer_at (pjoin p name) fz /\
                                cl_featurizer c = Some (featurize x ngrams (uo p 0) (uo p 1) fz)
      | None => cl_featurizer c = None
      end /\
      match clm_intercept m, clm_coeffs m with
      | Some i, Some k => exists lr, logreg_new i k = Ok lr /\ cl_logreg c = Some lr
      | _, _ => cl_logreg c = None
      end.
  Definition filler_at (p : path) (g : str -> outcome (list InternalSlot)) : Prop :=
    unit_at p UCrf /\ exists m cf, file_says p $"slot_filler.json" d_filler m /\
      crf_new x shape (ld_lang L) (fun name => ld_tagger L f (pjoin p name)) m res = Ok cf /\
      g = crf_get_slots x cf false.

  Definition parser_at (p : path) (ip : IntentParser) : Prop :=
    (unit_at p UDeterministic /\ exists m dp, file_says p $"intent_parser.json" d_deterministic m /\
       det_new x (ld_lang L) (ld_regex L) (uo p 0) (uo p 1) (uo p 2) m res = Ok dp /\
       ip = det_intent_parser x (uo p 3) dp) \/
    (unit_at p ULookup /\ exists m lp, file_says p $"intent_parser.json" d_lookup m /\
       lookup_new (ld_lang L) (uo p 0) m res = Ok lp /\ ip = lookup_intent_parser x (uo p 3) lp) \/
    (unit_at p UProbabilistic /\ exists entries c fillers,
       file_says p $"intent_parser.json" (fun _ => d_probabilistic) entries /\
       unit_at (pjoin p $"intent_classifier") ULogReg /\ classifier_at (pjoin p $"intent_classifier") c /\
       Forall2 (fun e g => fst g = fst e /\ filler_at (pjoin p (snd e)) (snd g)) entries fillers /\
       ip = prob_intent_parser (prob_new (uo p 0) (logreg_classifier mx c) fillers)).
End Layout.

(** The engine in directory [p]: the parsers are those that the model lists, in order. *)
Definition engine_at (x : Ext) (shape : str -> str) (ngrams : list str -> nat -> list str) (mx : Math) (L : Loader)
    (fo : path -> orders) (uo : path -> nat -> HashOrder) (f : fs) (p : path) (en : Engine) : Prop :=
  file_says L fo f p $"nlu_engine.json" (fun _ => d_model_version) $"0.20.0" /\
  load_engine_shared_resources x L fo uo f p = Ok (en_resources en) /\
  exists m, file_says L fo f p $"nlu_engine.json" d_engine m /\ en_dataset en = em_dataset m /\
    Forall2 (fun name ip => parser_at x shape ngrams mx L fo uo f (en_resources en) (pjoin p name) ip)
            (em_parsers m) (en_parsers en).

(** ** What the rule based parsers were taught *)
Inductive rules := Patterns (m : DetModel) | Table (m : LookupModel).

(** The directory [p] is that of a rule based parser with these rules. *)
Definition rules_at (L : Loader) (fo : path -> orders) (f : fs) (p : path) (r : rules) : Prop :=
  match r with
  | Patterns m => unit_at L fo f p UDeterministic /\ file_says L fo f p $"intent_parser.json" d_deterministic m
  | Table m => unit_at L fo f p ULookup /\ file_says L fo f p $"intent_parser.json" d_lookup m
  end.

(** The text is understood as [intent] with [slots] (C62, C63). *)
Definition understood (x : Ext) (L : Loader) (res : Resources) (input : str) (filter : option (list str))
    (r : rules) (intent : str) (slots : list InternalSlot) : Prop :=
  match r with
  | Patterns m => exists l, ld_lang L (dm_language m) = Some l /\
                            pattern_recognised x (ld_regex L) l m res input filter intent slots
  | Table m => exists l, ld_lang L (lm_language m) = Some l /\ recognised x l m res input filter intent slots
  end.

(** Texts and tables of reasonable size. *)
Definition of_reasonable_size (x : Ext) (res : Resources) (input : str) (r : rules) : Prop :=
  match r with Patterns m => texts_fit x m res input | Table m => small_table m end.

(** The external parts respect their contracts on this text. *)
Definition externals_ok (x : Ext) (L : Loader) (res : Resources) (input : str) : Prop :=
  tokenizer_ok x /\ builtin_parser_ok (rs_builtin res) input /\ custom_parser_ok (rs_custom res) input /\
  groups_fit (ld_regex L).

(** The parsers called [names] in the directory [p] are rule based, and none of them
    understands the text. *)
Definition none_understands (x : Ext) (L : Loader) (fo : path -> orders) (f : fs) (p : path) (res : Resources)
    (input : str) (filter : option (list str)) (names : list str) : Prop :=
  forall n, In n names -> exists r, rules_at L fo f (pjoin p n) r /\ of_reasonable_size x res input r /\
    forall i slots, ~ understood x L res input filter r i slots.
