(** Specification vocabulary for the features of the intent classifier. *)
From Coq Require Import String List ZArith Arith.
From Verif Require Import Base F32 M_Types M_Utils M_Feat S_Utils.
Import ListNotations.

(** How many of the words have index [i] in the vocabulary. *)
Fixpoint occurrences (vocab : list (str * nat)) (i : nat) (words : list str) : nat :=
  match words with
  | [] => 0
  | w :: r => match sget w vocab with
              | Some j => if j =? i then S (occurrences vocab i r) else occurrences vocab i r
              | None => occurrences vocab i r
              end
  end.

(** [i] is the largest index of the vocabulary. *)
Definition largest_index (vocab : list (str * nat)) (i : nat) : Prop :=
  (exists w, In (w, i) vocab) /\ forall w j, In (w, j) vocab -> j <= i.

(** Coordinate of an index before normalisation. *)
Definition raw_feature (vocab : list (str * nat)) (idf : list f32) (words : list str) (i : nat) (v : f32) : Prop :=
  (occurrences vocab i words = 0 /\ v = f0) \/
  (0 < occurrences vocab i words /\ exists w, nth_error idf i = Some w /\
     v = fmul (f32_of_nat (occurrences vocab i words)) w).

(** Square root of the sum of squares, in binary32, or 1 when it is not positive. *)
Definition divisor (raw : list f32) : f32 :=
  let norm := fsqrt (fold_left (fun n v => fadd n (fmul v v)) raw f0) in
  if flt f0 norm then norm else f1.

(** ** Cooccurrence *)

(** Words that count: not a stop word when these are filtered, not the unknown word marker. *)
Definition counts (cv : Cooc) (t : str) : Prop :=
  (cv_filter_stop cv = true -> ~ In t (rs_stop_words (cv_res cv))) /\ cv_unknown cv <> Some t.

Inductive counted (cv : Cooc) : list str -> list str -> Prop :=
| counted_nil : counted cv [] []
| counted_keep t l m : counts cv t -> counted cv l m -> counted cv (t :: l) (t :: m)
| counted_drop t l m : ~ counts cv t -> counted cv l m -> counted cv (t :: l) m.

(** [a] occurs before [b], at most [window] words apart. *)
Definition follows (window : option nat) (words : list str) (a b : str) : Prop :=
  exists i j, i < j /\ (forall w, window = Some w -> j - i <= w) /\
              nth_error words i = Some a /\ nth_error words j = Some b.

(** Lexicographic order of the code points. *)
Inductive str_lt : str -> str -> Prop :=
| lt_nil c s : str_lt [] (c :: s)
| lt_head c d s t : (c < d)%N -> str_lt (c :: s) (d :: t)
| lt_tail c s t : str_lt s t -> str_lt (c :: s) (c :: t).

(** The pair [(a, b)] of the model is present: [a] before [b] when the order matters;
    otherwise the pair must be written in increasing order and either order will do. *)
Definition pair_present (cv : Cooc) (words : list str) (a b : str) : Prop :=
  if cv_keep_order cv then follows (cv_window cv) words a b
  else (str_lt a b \/ a = b) /\
       (follows (cv_window cv) words a b \/ follows (cv_window cv) words b a).

(** A pair table: [n] distinct pairs numbered from 0 to n-1. *)
Definition good_pairs (pairs : list (nat * (str * str))) : Prop :=
  NoDup (map fst pairs) /\ NoDup (map snd pairs) /\
  forall k, In k (map fst pairs) -> k < length pairs.

(** The word that stands for an entity: a prefix, then the words of the entity name in
    lower case, written together. *)
Definition entity_word (x : Ext) (l : lang) (prefix name : str) : str :=
  prefix ++ concat (x_tokenize_light x l (x_lower x name)).

(** ** From the model files *)
(** The builtin entities that are known under the names of the file. *)
Definition known_kinds (x : Ext) : list str -> list kind -> Prop :=
  Forall2 (fun name k => x_kind_of_identifier x name = Some k).

(** What the tf-idf vectorizer of a model file is: the vocabulary and weights of the file,
    with the stemmer and the word clusters that the file asks for. *)
Definition vectorizer_of (x : Ext) (lang_of : str -> option lang) (m : TfidfModel) (res : Resources) (tv : Tfidf) : Prop :=
  lang_of (tm_language m) = Some (tv_lang tv) /\ known_kinds x (tm_scope m) (tv_scope tv) /\
  tv_vocab tv = tm_vocab m /\ tv_idf tv = tm_idf m /\ tv_res tv = res /\
  (if tm_stemming m then exists s, rs_stemmer res = Some s /\ tv_stemmer tv = Some s else tv_stemmer tv = None) /\
  match tm_clusters m with
  | Some name => exists c, sget name (rs_clusterers res) = Some c /\ tv_clusterer tv = Some c
  | None => tv_clusterer tv = None
  end.

(** The cooccurrence vectorizer of a model file. *)
Definition pairs_of (x : Ext) (lang_of : str -> option lang) (m : CoocModel) (res : Resources) (cv : Cooc) : Prop :=
  lang_of (cm_language m) = Some (cv_lang cv) /\ known_kinds x (cm_scope m) (cv_scope cv) /\
  cv_filter_stop cv = cm_filter_stop m /\ cv_window cv = cm_window m /\ cv_keep_order cv = cm_keep_order m /\
  cv_unknown cv = cm_unknown m /\ cv_res cv = res /\
  (NoDup (map snd (cm_pairs m)) -> forall a b k, In ((a, b), k) (cv_pairs cv) <-> In (k, (a, b)) (cm_pairs m)).

(** The text whose word pairs are looked at: the longest entities found in the text, builtin
    ones of the kinds of the model and custom ones, are replaced by the words of their names,
    written together in upper case. *)
Definition enriched_text (x : Ext) (cv : Cooc) (utt enriched : str) : Prop :=
  exists bes ces kept,
    rs_builtin (cv_res cv) utt (Some (cv_scope cv)) true 0 = Ok bes /\
    rs_custom (cv_res cv) utt None 0 = Ok ces /\
    overlap_resolution me_range text_length
      (map (fun e => mkME (be_range e) (be_kind e)) bes ++ map (fun e => mkME (ce_range e) (ce_entity e)) ces) kept /\
    enriched = apply_edits utt 0
      (map (fun e => (me_range e, x_upper x (concat (x_tokenize_light x (cv_lang cv) (me_name e))))) kept).
