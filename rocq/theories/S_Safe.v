(** Specification vocabulary for crashes of loaded engines and of loading: C68, C69. *)
From Coq Require Import String List NArith ZArith.
From Flocq Require Import Core.Core IEEE754.BinarySingleNaN.
From Verif Require Import Base F32 M_Types M_Det M_Lookup M_Feat M_Prob M_Features M_Filler M_Res M_Fs M_Json M_Load
  S_Base S_Utils S_Det S_Rules S_Match S_Feat S_Prob S_Crf S_Filler S_Res S_Load.
Import ListNotations.
Local Open Scope nat_scope.

(** ** Numbers *)
(** A number between [-b] and [b]. *)
Definition within (b v : f32) : Prop := fle (fneg b) v = true /\ fle v b = true.
(** 4, and 2^64. *)
Definition four : f32 := f32_of_Z 4.
Definition big : f32 := binary_normalize 24 128 _ _ mode_NE 1 64 false.

(** Contract of the matrix product: with at most 2^24 terms, factors of at most 4 on one side
    and of at most 2^64 on the other, the result is a number (no term and no partial sum can
    exceed 2^90, in whatever order the terms are added, with or without fused operations). *)
Definition cell_ok (mx : Math) : Prop :=
  forall row m j, (Z.of_nat (length row) <= 2 ^ 24)%Z -> length row = length m ->
    (forall v, In v row -> within four v) ->
    (forall r, In r m -> exists w, nth_error r j = Some w /\ within big w) ->
    fis_nan (mx_cell mx row m j) = false.

(** ** Model files *)
(** A tf-idf model: some word, each with a weight, of at most 2^64. *)
Definition sound_tfidf (m : TfidfModel) : Prop :=
  tm_vocab m <> [] /\ (forall w i, In (w, i) (tm_vocab m) -> i < length (tm_idf m)) /\
  forall v, In v (tm_idf m) -> within big v.

(** A lookup table: the numbers of intents and slots are positions in the lists of names. *)
Definition sound_lookup (m : LookupModel) : Prop :=
  forall h i ss, In (h, (i, ss)) (lm_map m) ->
    valid_id (lm_intents_names m) i /\ (forall s, In s ss -> valid_id (lm_slots_names m) s) /\
    (Z.of_nat (length ss) < 2 ^ 64)%Z.

(** A slot filler: no n-gram of 2^63 tokens or more. *)
Definition sound_filler (m : SlotFillerModel) : Prop :=
  forall f z, In f (sm_factories m) -> sget $"n" (ff_args f) = Some (JNum z) -> (z < 2 ^ 63)%Z.

(** A classifier: coefficients of at most 2^64, less than 2^24 features. *)
Definition sound_classifier (m : ClassifierModel) : Prop :=
  forall intercept coeffs, clm_intercept m = Some intercept -> clm_coeffs m = Some coeffs ->
    (forall v, In v intercept -> within big v) /\
    forall row, In row coeffs -> (Z.of_nat (length row) < 2 ^ 24)%Z /\ forall v, In v row -> within big v.

(** Every file that can be read as a model of some sort is a sound one. *)
Definition sound_files (L : Loader) (fo : path -> orders) (f : fs) : Prop :=
  forall p j, json_at L f p j ->
    (forall m, d_tfidf (ld_f32 L) (fo p) j = Ok m -> sound_tfidf m) /\
    (forall m, d_cooccurrence (fo p) j = Ok m -> good_pairs (cm_pairs m)) /\
    (forall m, d_lookup (fo p) j = Ok m -> sound_lookup m) /\
    (forall m, d_deterministic (fo p) j = Ok m -> groups_declared (ld_regex L) m) /\
    (forall m, d_filler (fo p) j = Ok m -> sound_filler m) /\
    (forall m, d_classifier (ld_f32 L) j = Ok m -> sound_classifier m).

(** ** External code *)
(** The tokenizer gives words of the text, in order; the numerical functions give numbers;
    the entity parsers and the taggers do not panic; an entity found by the gazetteer parser
    covers some characters of the text it was given; a tagger gives one tag for each token. *)
Definition externals_behave (x : Ext) (mx : Math) (L : Loader) (f : fs) : Prop :=
  tokenizer_ok x /\ exp_ok mx /\ cell_ok mx /\ groups_fit (ld_regex L) /\
  (forall p b, ld_builtin L f p = Ok b -> forall s kinds n, b s kinds n <> Panic) /\
  (forall p g, ld_gazetteer L f p = Ok g -> forall s kinds n, g s kinds n <> Panic /\
     forall es e, g s kinds n = Ok es -> In e es -> wf_range (length s) (ce_range e)) /\
  (forall p t, ld_tagger L f p = Ok t -> tagger_ok t /\ tagger_never_panics t).

(** ** Texts *)
(** The words, normalised and perhaps stemmed, separated by blanks. *)
Definition normalized_text (x : Ext) (stemmer : option (str -> str)) (words : list str) : str :=
  join [space] (map (fun w => match stemmer with Some st => st (x_normalize x w) | None => x_normalize x w end) words).

(** A text that is given to the custom entity parser when [input] is analysed: a part of it,
    or its normalised words. *)
Definition derived_text (x : Ext) (res : Resources) (input s : str) : Prop :=
  (exists r, s = substring input r) \/
  exists l stemmer words, (stemmer = None \/ stemmer = rs_stemmer res) /\
    (words = x_tokenize_light x l input \/ words = map tk_value (x_tokenize x l input)) /\
    s = normalized_text x stemmer words.

(** No text that comes into play has 2^29 characters or more. *)
Definition texts_below_limit (x : Ext) (res : Resources) (input : str) : Prop :=
  (Z.of_nat (length input) < 2 ^ 29)%Z /\
  forall s, derived_text x res input s -> (Z.of_nat (length (x_lower x s)) < 2 ^ 29)%Z.

(** ** Loading *)
(** No file makes loading crash: each classifier has a full table of coefficients, and the
    first row of each list of word clusters has several fields. *)
Definition crash_free_files (L : Loader) (f : fs) : Prop :=
  (forall p j m intercept coeffs, json_at L f p j -> d_classifier (ld_f32 L) j = Ok m ->
     clm_intercept m = Some intercept -> clm_coeffs m = Some coeffs -> full_table (length intercept) coeffs) /\
  (forall dir j m names n text first rest, json_at L f (pjoin dir $"metadata.json") j -> d_resources j = Ok m ->
     rm_clusters m = Some names -> In n names ->
     f (resolve (with_extension (pjoin (pjoin dir $"word_clusters") n) $"txt")) = Some (File text) ->
     is_table tab text (first :: rest) -> length first <> 1).

(** The external code used to load does not panic. *)
Definition loaders_calm (L : Loader) (f : fs) : Prop :=
  (forall p, ld_regex L p <> Panic) /\ (forall p, ld_builtin L f p <> Panic) /\
  (forall p, ld_gazetteer L f p <> Panic) /\ (forall p, ld_tagger L f p <> Panic).
