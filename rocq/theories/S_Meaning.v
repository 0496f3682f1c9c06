(** Specification vocabulary for C75: what each kind of feature of a slot filler says about
    a word of the sentence, and what its arguments in the model file mean. *)
From Coq Require Import String List NArith ZArith.
From Verif Require Import Base M_Types M_Crf M_Feat M_Features S_Base S_Utils S_Det S_Crf S_Filler.
Import ListNotations.

(** What a feature says: [m tokens i v] when [v] is a right value for token [i]. *)
Definition meaning := list token -> nat -> option str -> Prop.

(** A mark ("1") put exactly where [P] holds. *)
Definition marks (P : Prop) (v : option str) : Prop := (P /\ v = Some $"1") \/ (~ P /\ v = None).

Definition says_digit : meaning := fun toks i v =>
  forall t, nth_error toks i = Some t -> marks (forall c, In c (tk_value t) -> (48 <= c <= 57)%N) v.
Definition says_length : meaning := fun toks i v =>
  forall t, nth_error toks i = Some t -> v = Some (show_nat (length (tk_value t))).
Definition says_first : meaning := fun toks i v => marks (i = 0) v.
Definition says_last : meaning := fun toks i v => marks (i + 1 = length toks) v.

(** A word as the features see it: normalised, then stemmed if there is a stemmer. *)
Definition seen_as (x : Ext) (st : option (str -> str)) (w : str) : str :=
  match st with Some f => f (x_normalize x w) | None => x_normalize x w end.

(** In an n-gram, a word that the gazetteer of common words does not have is "rare_word". *)
Definition common_as (x : Ext) (gaz : option (str -> bool)) (st : option (str -> str)) (w w' : str) : Prop :=
  ((forall g, gaz = Some g -> g (seen_as x st w) = true) /\ w' = seen_as x st w) \/
  ((exists g, gaz = Some g /\ g (seen_as x st w) = false) /\ w' = $"rare_word").

(** The [n] tokens from token [i] on. *)
Definition next_tokens (toks : list token) (i n : nat) (l : list token) : Prop :=
  length l = n /\ exists before after, toks = before ++ l ++ after /\ length before = i.

(** Sizes such that a position plus a size does not fit in 64 bits are left out. *)
Definition says_ngram (x : Ext) (n : nat) (gaz : option (str -> bool)) (st : option (str -> str)) : meaning :=
  fun toks i v => (Z.of_nat i + Z.of_nat n < 2 ^ 64)%Z ->
    (v = None <-> length toks < i + n) /\
    (forall s, v = Some s -> exists l ws, next_tokens toks i n l /\
       Forall2 (fun t w => common_as x gaz st (tk_value t) w) l ws /\ s = join [space] ws).

(** A shape n-gram of no word does not exist. *)
Definition says_shape_ngram (shape : str -> str) (n : nat) : meaning :=
  fun toks i v => (Z.of_nat i + Z.of_nat n < 2 ^ 64)%Z ->
    (v = None <-> n = 0 \/ length toks < i + n) /\
    (forall s, v = Some s -> exists l, next_tokens toks i n l /\
       s = join [space] (map (fun t => shape (tk_value t)) l)).

Definition says_prefix (x : Ext) (k : nat) : meaning := fun toks i v =>
  forall t, nth_error toks i = Some t ->
    (v = None <-> length (x_normalize x (tk_value t)) < k) /\
    (forall p, v = Some p -> length p = k /\ exists rest, x_normalize x (tk_value t) = p ++ rest).
Definition says_suffix (x : Ext) (k : nat) : meaning := fun toks i v =>
  forall t, nth_error toks i = Some t ->
    (v = None <-> length (x_normalize x (tk_value t)) < k) /\
    (forall p, v = Some p -> length p = k /\ exists rest, x_normalize x (tk_value t) = rest ++ p).

Definition says_cluster (x : Ext) (cluster : str -> option str) : meaning := fun toks i v =>
  forall t, nth_error toks i = Some t -> v = cluster (x_lower x (tk_value t)).

(** The entities are those the parser of custom entities finds in the words as they are
    seen, with one blank between them; no word is seen as nothing. *)
Definition says_entity (x : Ext) (entity : str) (sc : TaggingScheme) (st : option (str -> str))
    (parser : CustomParser) : meaning := fun toks i v =>
  exists seen es,
    map tk_value seen = map (fun t => seen_as x st (tk_value t)) toks /\
    (forall t, In t seen ->
       substring (join [space] (map tk_value seen)) (tk_char_range t) = tk_value t) /\
    parser (join [space] (map tk_value seen)) (Some [entity]) 0 = Ok es /\
    ((forall t, In t toks -> seen_as x st (tk_value t) <> []) ->
     (forall e, In e es -> rstart (ce_range e) < rend (ce_range e)) ->
     entity_mark sc seen (map ce_range es) i v).

(** The entities are those of kind [k] that the parser of builtin entities finds in the
    tokens, each at its place. *)
Definition says_builtin (k : kind) (sc : TaggingScheme) (parser : BuiltinParser) : meaning := fun toks i v =>
  laid_out toks -> exists text es, shows_tokens toks text /\ parser text (Some [k]) true 0 = Ok es /\
    ((forall t, In t toks -> rstart (tk_char_range t) < rend (tk_char_range t)) ->
     (forall e, In e es -> rstart (be_range e) < rend (be_range e)) ->
     entity_mark sc toks (map be_range es) i v).

(** ** Arguments *)
Definition number_arg (a : args) (k : str) (n : nat) : Prop :=
  exists z, sget k a = Some (JNum z) /\ (0 <= z < 2 ^ 64)%Z /\ n = Z.to_nat z.
Definition texts_arg (a : args) (k : str) (l : list str) : Prop := sget k a = Some (JArr (map JStr l)).

(** The scheme of a code: 0 is IO, 1 is BIO, 2 is BILOU.  The code of an argument is taken
    modulo 256. *)
Definition scheme_code (z : Z) (sc : TaggingScheme) : Prop :=
  match sc with IO => z = 0 | BIO => z = 1 | BILOU => z = 2 end%Z.
Definition scheme_arg (a : args) (sc : TaggingScheme) : Prop :=
  exists z, sget $"tagging_scheme_code" a = Some (JNum z) /\ (0 <= z < 2 ^ 64)%Z /\ scheme_code (z mod 256) sc.

(** The stemmer of the resources, or none, as [use_stemming] says. *)
Inductive stemmer_arg (res : Resources) (a : args) : option (str -> str) -> Prop :=
| with_stemmer st : sget $"use_stemming" a = Some (JBool true) -> rs_stemmer res = Some st ->
    stemmer_arg res a (Some st)
| without_stemmer : sget $"use_stemming" a = Some (JBool false) -> stemmer_arg res a None.

(** The named gazetteer; anything but a text means no gazetteer. *)
Inductive gazetteer_arg (res : Resources) (a : args) : option (str -> bool) -> Prop :=
| with_gazetteer n g : sget $"common_words_gazetteer_name" a = Some (JStr n) ->
    sget n (rs_gazetteers res) = Some g -> gazetteer_arg res a (Some g)
| without_gazetteer j : sget $"common_words_gazetteer_name" a = Some j -> (forall n, j <> JStr n) ->
    gazetteer_arg res a None.

(** The features of a factory: their names and what they say. *)
Inductive described (x : Ext) (shape : str -> str) (res : Resources) (a : args)
    : str -> list (str * meaning) -> Prop :=
| d_digit : described x shape res a $"is_digit" [($"is_digit", says_digit)]
| d_length : described x shape res a $"length" [($"length", says_length)]
| d_first : described x shape res a $"is_first" [($"is_first", says_first)]
| d_last : described x shape res a $"is_last" [($"is_last", says_last)]
| d_ngram n g st : number_arg a $"n" n -> gazetteer_arg res a g -> stemmer_arg res a st ->
    described x shape res a $"ngram" [($"ngram_" ++ show_nat n, says_ngram x n g st)]
| d_shape n : number_arg a $"n" n ->
    described x shape res a $"shape_ngram" [($"shape_ngram_" ++ show_nat n, says_shape_ngram shape n)]
| d_prefix n : number_arg a $"prefix_size" n ->
    described x shape res a $"prefix" [($"prefix_" ++ show_nat n, says_prefix x n)]
| d_suffix n : number_arg a $"suffix_size" n ->
    described x shape res a $"suffix" [($"suffix_" ++ show_nat n, says_suffix x n)]
| d_cluster n c : sget $"cluster_name" a = Some (JStr n) -> sget n (rs_clusterers res) = Some c ->
    described x shape res a $"word_cluster" [($"word_cluster_" ++ n, says_cluster x c)]
| d_entity l sc st : texts_arg a $"entities" l -> scheme_arg a sc -> stemmer_arg res a st ->
    described x shape res a $"entity_match"
      (map (fun e => ($"entity_match_" ++ e, says_entity x e sc st (rs_custom res))) l)
| d_builtin l ks sc : texts_arg a $"entity_labels" l -> scheme_arg a sc ->
    Forall2 (fun e k => x_kind_of_identifier x e = Some k) l ks ->
    described x shape res a $"builtin_entity_match"
      (map (fun k => ($"builtin_entity_match_" ++ k, says_builtin k sc (rs_builtin res))) ks).

(** A feature has the name, the offsets and the values it should have. *)
Definition right_feature (offsets : list Z) (fo : FeatureOffsetter) (s : str * meaning) : Prop :=
  ft_name (fo_feature fo) = fst s /\ fo_offsets fo = offsets /\
  forall toks i v, i < length toks -> ft_compute (fo_feature fo) toks i = Ok v -> snd s toks i v.
