(** Model of src/intent_classifier/featurizer.rs. *)
From Coq Require Import String List NArith ZArith Bool Arith.
From Verif Require Import Base Sorting F32 M_Types M_Utils M_Engine M_Det.
Import ListNotations.

(** [Ord for String]: byte-wise; on UTF-8 this is the order of the code points.
    featurizer.rs:188-192 and 397-407 sort with it. *)
Fixpoint str_leb (a b : str) : bool :=
  match a, b with
  | [], _ => true
  | _ :: _, [] => false
  | c :: a', d :: b' => if (c =? d)%N then str_leb a' b' else (c <? d)%N
  end.
(** featurizer.rs:373 *)
Definition str_ltb (a b : str) : bool := str_leb a b && negb (str_eqb a b).

(** featurizer.rs:409-413 *)
Definition normalize_stem (x : Ext) (stemmer : option (str -> str)) (tokens : list str) : list str :=
  match stemmer with
  | Some stem => map (fun t => stem (x_normalize x t)) tokens
  | None => map (x_normalize x) tokens
  end.

(** featurizer.rs:384-395 *)
Definition builtin_feature_name (x : Ext) (l : lang) (k : kind) : str :=
  $"builtinentityfeature" ++ join [] (x_tokenize_light x l (x_lower x k)).
(** featurizer.rs:392-395 *)
Definition custom_feature_name (x : Ext) (l : lang) (e : str) : str :=
  $"entityfeature" ++ join [] (x_tokenize_light x l (x_lower x e)).

(** featurizer.rs:397-407.  [ngrams] is [compute_all_ngrams] (external), texts only. *)
Definition word_clusters (x : Ext) (ngrams : list str -> nat -> list str)
    (cluster : str -> option str) (tokens : list str) : list str :=
  isort str_leb (filter_map (fun g => cluster (x_lower x g)) (ngrams tokens (length tokens))).

(** src/models/intent_classifier.rs:22-40 *)
Record TfidfModel := mkTM {
  tm_language : str; tm_scope : list str; tm_idf : list f32; tm_vocab : list (str * nat);
  tm_stemming : bool; tm_clusters : option str }.

(** featurizer.rs:90-98 *)
Record Tfidf := mkTV {
  tv_scope : list kind; tv_vocab : list (str * nat); tv_idf : list f32;
  tv_clusterer : option (str -> option str); tv_stemmer : option (str -> str);
  tv_lang : lang; tv_res : Resources }.

(** featurizer.rs:119-176 *)
Definition tfidf_new (x : Ext) (lang_of : str -> option lang) (m : TfidfModel) (res : Resources)
    : outcome Tfidf :=
  let* l := ok_or EOther (lang_of (tm_language m)) in
  let* cl := match tm_clusters m with
             | Some n => let* c := ok_or EOther (sget n (rs_clusterers res)) in Ok (Some c)
             | None => Ok None
             end in
  let* scope := mapM (fun e => ok_or EOther (x_kind_of_identifier x e)) (tm_scope m) in
  let* st := if tm_stemming m then let* s := ok_or EOther (rs_stemmer res) in Ok (Some s) else Ok None in
  Ok (mkTV scope (tm_vocab m) (tm_idf m) cl st l res).

(** [v[i] = f(v[i])]: panics out of bounds.  featurizer.rs:226 *)
Fixpoint update_at {A} (f : A -> A) (i : nat) (l : list A) : outcome (list A) :=
  match l, i with
  | [], _ => Panic
  | a :: r, 0 => Ok (f a :: r)
  | a :: r, S i' => let* r' := update_at f i' r in Ok (a :: r')
  end.

(** featurizer.rs:220, [values().max().unwrap() + 1]: panics on an empty vocabulary. *)
Definition vocabulary_size (v : list (str * nat)) : outcome nat :=
  match v with
  | [] => Panic
  | _ => Ok (S (list_max (map snd v)))
  end.

(** Words known to the vocabulary, by index, featurizer.rs:223-230. *)
Definition word_indices (v : list (str * nat)) (words : list str) : list nat :=
  filter_map (fun w => sget w v) words.

(** featurizer.rs:220-230: the counts. *)
Definition count_words (size : nat) (idx : list nat) : outcome (list f32) :=
  fold_left (fun acc i => let* fs := acc in update_at (fun c => fadd c f1) i fs)
            idx (Ok (repeat f0 size)).

(** featurizer.rs:232-234: each index that occurs, once, in the order [ord] of the set. *)
Definition apply_idf (ord : HashOrder) (idf : list f32) (idx : list nat) (fs : list f32)
    : outcome (list f32) :=
  fold_left (fun acc i => let* fs := acc in
                          let* w := index idf i in
                          update_at (fun c => fmul c w) i fs)
            (reorder ord (unique Nat.eqb idx)) (Ok fs).

(** featurizer.rs:236-239 *)
Definition l2_normalize (fs : list f32) : list f32 :=
  let norm := fsqrt (fold_left (fun n v => fadd n (fmul v v)) fs f0) in
  let safe := if flt f0 norm then norm else f1 in
  map (fun c => fdiv c safe) fs.

(** The words of a text, by source, featurizer.rs:179-218. *)
Definition tfidf_words (x : Ext) (ngrams : list str -> nat -> list str) (tv : Tfidf) (utterance : str)
    : outcome (list str) :=
  let tokens := x_tokenize_light x (tv_lang tv) utterance in
  let normalized := normalize_stem x (tv_stemmer tv) tokens in
  let* bes := rs_builtin (tv_res tv) utterance (Some (tv_scope tv)) true 0 in
  let bfs := isort str_leb (map (fun e => builtin_feature_name x (tv_lang tv) (be_kind e)) bes) in
  let* ces := rs_custom (tv_res tv) (join [space] normalized) None 0 in
  let cfs := map (fun e => custom_feature_name x (tv_lang tv) (ce_entity e)) ces in
  let wcs := match tv_clusterer tv with
             | Some c => word_clusters x ngrams c tokens
             | None => []
             end in
  Ok (normalized ++ bfs ++ cfs ++ wcs).

(** featurizer.rs:178-241 *)
Definition tfidf_transform (x : Ext) (ngrams : list str -> nat -> list str) (ord : HashOrder)
    (tv : Tfidf) (utterance : str) : outcome (list f32) :=
  let* words := tfidf_words x ngrams tv utterance in
  let* size := vocabulary_size (tv_vocab tv) in
  let idx := word_indices (tv_vocab tv) words in
  let* counts := count_words size idx in
  let* weighted := apply_idf ord (tv_idf tv) idx counts in
  Ok (l2_normalize weighted).

(** ** Cooccurrence *)
(** Equality of the pairs of words of featurizer.rs:274-311. *)
Definition pair_eqb (a b : str * str) : bool := str_eqb (fst a) (fst b) && str_eqb (snd a) (snd b).

(** src/models/intent_classifier.rs:42-56 *)
Record CoocModel := mkCM {
  cm_language : str; cm_scope : list str; cm_pairs : list (nat * (str * str));
  cm_window : option nat; cm_filter_stop : bool; cm_keep_order : bool; cm_unknown : option str }.

(** featurizer.rs:244-253 *)
Record Cooc := mkCV {
  cv_lang : lang; cv_scope : list kind; cv_pairs : list ((str * str) * nat);
  cv_filter_stop : bool; cv_window : option nat; cv_keep_order : bool;
  cv_unknown : option str; cv_res : Resources }.

(** featurizer.rs:274-311.  [cm_pairs] is in the iteration order of the deserialized map. *)
Definition cooc_new (x : Ext) (lang_of : str -> option lang) (m : CoocModel) (res : Resources)
    : outcome Cooc :=
  let* scope := mapM (fun e => ok_or EOther (x_kind_of_identifier x e)) (cm_scope m) in
  let pairs := hcollect pair_eqb (map (fun ip => (snd ip, fst ip)) (cm_pairs m)) in
  let* l := ok_or EOther (lang_of (cm_language m)) in
  Ok (mkCV l scope pairs (cm_filter_stop m) (cm_window m) (cm_keep_order m) (cm_unknown m) res).

(** featurizer.rs:357-363: tokens that count. *)
Definition kept_tokens (cv : Cooc) (tokens : list str) : list str :=
  filter (fun t => negb (cv_filter_stop cv && smem t (rs_stop_words (cv_res cv)))
                   && match cv_unknown cv with Some u => negb (str_eqb t u) | None => true end) tokens.

(** featurizer.rs:364-380, from position [i].  The sum [i + window_size + 1] does not overflow
    here (a window near 2^64 would wrap in a release build). *)
Definition pairs_from (keep_order : bool) (window : option nat) (t : str) (rest : list str)
    : list (str * str) :=
  map (fun other => if keep_order || str_ltb t other then (t, other) else (other, t))
      (match window with Some w => firstn w rest | None => rest end).
(** featurizer.rs:364-380 *)
Fixpoint all_pairs (keep_order : bool) (window : option nat) (tokens : list str) : list (str * str) :=
  match tokens with
  | [] => []
  | t :: rest => pairs_from keep_order window t rest ++ all_pairs keep_order window rest
  end.

(** featurizer.rs:356-381: the set, in the order [ord]. *)
Definition extract_word_pairs (ord : HashOrder) (cv : Cooc) (tokens : list str) : list (str * str) :=
  reorder ord (unique pair_eqb (all_pairs (cv_keep_order cv) (cv_window cv) (kept_tokens cv tokens))).

(** featurizer.rs:350-354 *)
Definition cooc_placeholder (x : Ext) (cv : Cooc) (k : str) : str :=
  x_upper x (join [] (x_tokenize_light x (cv_lang cv) k)).

(** The tokens of the enriched text, featurizer.rs:314-339. *)
Definition cooc_tokens (x : Ext) (cv : Cooc) (utterance : str) : outcome (list str) :=
  let* bes := rs_builtin (cv_res cv) utterance (Some (cv_scope cv)) true 0 in
  let* ces := rs_custom (cv_res cv) utterance None 0 in
  let matched := map matched_of_builtin bes ++ map matched_of_custom ces in
  Ok (x_tokenize_light x (cv_lang cv) (snd (replace_entities utterance matched (cooc_placeholder x cv)))).

(** featurizer.rs:341-347 *)
Definition mark_pairs (pairs : list ((str * str) * nat)) (ps : list (str * str)) : outcome (list f32) :=
  fold_left (fun acc p => let* fs := acc in
                          match hget pair_eqb p pairs with
                          | Some i => update_at (fun _ => f1) i fs
                          | None => Ok fs
                          end)
            ps (Ok (repeat f0 (length pairs))).

(** featurizer.rs:313-348 *)
Definition cooc_transform (x : Ext) (ord : HashOrder) (cv : Cooc) (utterance : str) : outcome (list f32) :=
  let* tokens := cooc_tokens x cv utterance in
  mark_pairs (cv_pairs cv) (extract_word_pairs ord cv tokens).

(** featurizer.rs:26-29, 80-87.  [o1], [o2]: hash orders of the two sets of the call. *)
Record Featurizer := mkFz { fz_tfidf : Tfidf; fz_cooc : option Cooc }.
(** featurizer.rs:80-87 *)
Definition featurize (x : Ext) (ngrams : list str -> nat -> list str) (o1 o2 : HashOrder)
    (fz : Featurizer) (input : str) : outcome (list f32) :=
  let* fs := tfidf_transform x ngrams o1 (fz_tfidf fz) input in
  match fz_cooc fz with
  | Some cv => let* cs := cooc_transform x o2 cv input in Ok (fs ++ cs)
  | None => Ok fs
  end.
