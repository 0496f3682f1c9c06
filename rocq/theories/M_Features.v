(** Model of src/slot_filler/features_utils.rs, features.rs, feature_processor.rs: the
    features of the CRF slot filler. *)
From Coq Require Import String List NArith ZArith Bool Arith Decimal DecimalString.
From Verif Require Import Base M_Types M_Crf M_Feat.
Import ListNotations.

(** ** features_utils.rs *)

(** features_utils.rs:6-25 *)
Definition get_word_chunk (word : str) (chunk_size chunk_start : nat) (reverse : bool) : option str :=
  if reverse && (chunk_start <? chunk_size) then None
  else
    let start := if reverse then chunk_start - chunk_size else chunk_start in
    if length word <? start + chunk_size then None
    else Some (firstn chunk_size (skipn start word)).

(** features_utils.rs:30-38, the loop *)
Fixpoint token_chunks (current : nat) (tokens : list token) : list str :=
  match tokens with
  | [] => []
  | t :: r =>
      let pad := if current <? rstart (tk_char_range t)
                 then [spaces (rstart (tk_char_range t) - current)] else [] in
      pad ++ [tk_value t] ++ token_chunks (rend (tk_char_range t)) r
  end.

(** features_utils.rs:27-40; the capacity [2 * tokens.len() - 1] underflows when there
    is no token. *)
Definition initial_string_from_tokens (tokens : list token) : outcome str :=
  let* _ := usub (2 * length tokens) 1 in
  Ok (concat (token_chunks 0 tokens)).

(** ** Arguments of features: [serde_json::Value] (external).  A number with a fraction or
    an exponent keeps its text; the fields of an object are in the order of the document. *)
Inductive json :=
| JNull | JBool (b : bool) | JNum (z : Z) | JFloat (text : str) | JStr (s : str) | JArr (l : list json)
| JObj (l : list (str * json)).

(** The argument [args] of features.rs:25-28 and of the other [build_features]. *)
Definition args := list (str * json).

(** features.rs:436-443 *)
Definition parse_as_string (a : args) (k : str) : outcome str :=
  let* v := ok_or EOther (sget k a) in
  match v with JStr s => Ok s | _ => Err EOther end.
(** features.rs:445-454 *)
Definition parse_as_opt_string (a : args) (k : str) : outcome (option str) :=
  let* v := ok_or EOther (sget k a) in
  Ok (match v with JStr s => Some s | _ => None end).
(** features.rs:456-471 *)
Definition parse_as_vec_string (a : args) (k : str) : outcome (list str) :=
  let* v := ok_or EOther (sget k a) in
  match v with
  | JArr l => mapM (fun j => match j with JStr s => Ok s | _ => Err EOther end) l
  | _ => Err EOther
  end.
(** features.rs:473-479 *)
Definition parse_as_bool (a : args) (k : str) : outcome bool :=
  let* v := ok_or EOther (sget k a) in
  match v with JBool b => Ok b | _ => Err EOther end.
(** features.rs:481-487 *)
Definition parse_as_u64 (a : args) (k : str) : outcome Z :=
  let* v := ok_or EOther (sget k a) in
  match v with JNum z => if ((0 <=? z) && (z <? 2 ^ 64))%Z then Ok z else Err EOther | _ => Err EOther end.

(** Decimal notation: [format!("{:?}", n)], and [format!("{:+}", i)].  features.rs:53-58
    and 184-186 *)
Definition show_nat (n : nat) : str := str_of_string (NilZero.string_of_uint (Nat.to_uint n)).
(** Helper of [show_signed]. *)
Definition show_Z (z : Z) : str := str_of_string (NilZero.string_of_int (Z.to_int z)).
(** feature_processor.rs:71 *)
Definition show_signed (z : Z) : str := if (z <? 0)%Z then show_Z z else $"+" ++ show_Z z.

(** Addition on [usize] wraps (release build); a debug build panics on overflow.
    features.rs:198 *)
Definition uadd (a b : nat) : nat := as_usize (Z.of_nat a + Z.of_nat b).

(** ** features.rs *)

(** The trait [Feature], feature_processor.rs:83-95: name and computation. *)
Record Feature := mkF { ft_name : str; ft_compute : list token -> nat -> outcome (option str) }.

(** features.rs:32-39 uses it. *)
Definition is_ascii_digit (c : char) : bool := ((48 <=? c) && (c <=? 57))%N.

(** features.rs:22-41 *)
Definition is_digit_feature : Feature :=
  mkF $"is_digit" (fun tokens i =>
    let* t := index tokens i in
    Ok (if forallb is_ascii_digit (tk_value t) then Some $"1" else None)).

(** features.rs:43-59 *)
Definition length_feature : Feature :=
  mkF $"length" (fun tokens i =>
    let* t := index tokens i in Ok (Some (show_nat (length (tk_value t))))).

(** features.rs:61-78 *)
Definition is_first_feature : Feature :=
  mkF $"is_first" (fun _ i => Ok (if i =? 0 then Some $"1" else None)).

(** features.rs:80-97 *)
Definition is_last_feature : Feature :=
  mkF $"is_last" (fun tokens i =>
    let* last := usub (length tokens) 1 in
    Ok (if i =? last then Some $"1" else None)).

(** [tokens[a..b]]: panics when [a > b] or [b > len].  features.rs:201 *)
Definition slice {A} (l : list A) (a b : nat) : outcome (list A) :=
  if (a <=? b) && (b <=? length l) then Ok (firstn (b - a) (skipn a l)) else Panic.

Section WithExt.
  Context (x : Ext) (get_shape : str -> str).   (* snips_nlu_utils::string::get_shape *)

  (** [stemmer.map(|s| s.stem(&normalize(v))).unwrap_or(normalize(v))],
      features.rs:158-162 and 423-425 *)
  Definition stem_normalize (stemmer : option (str -> str)) (v : str) : str :=
    match stemmer with
    | Some st => st (x_normalize x v)
    | None => x_normalize x v
    end.

  (** features.rs:155-173: the word of a token in an n-gram *)
  Definition ngram_word (stemmer : option (str -> str)) (gazetteer : option (str -> bool)) (t : token) : str :=
    let v := stem_normalize stemmer (tk_value t) in
    match gazetteer with
    | Some g => if g v then v else $"rare_word"
    | None => v
    end.

  (** features.rs:105-108, 150-176 *)
  Definition ngram_feature (n : nat) (gazetteer : option (str -> bool)) (stemmer : option (str -> str)) : Feature :=
    mkF ($"ngram_" ++ show_nat n) (fun tokens i =>
      if length tokens <? uadd i n then Ok None
      else
        let* ts := slice tokens i (uadd i n) in
        Ok (Some (join [space] (map (ngram_word stemmer gazetteer) ts)))).

  (** features.rs:110-148 *)
  Definition build_ngram (a : args) (res : Resources) : outcome (list Feature) :=
    let* n := parse_as_u64 a $"n" in
    let* name := parse_as_opt_string a $"common_words_gazetteer_name" in
    let* gaz := match name with
                | Some g => let* r := ok_or EOther (sget g (rs_gazetteers res)) in Ok (Some r)
                | None => Ok None
                end in
    let* stem := parse_as_bool a $"use_stemming" in
    let* st := if stem then let* s := ok_or EOther (rs_stemmer res) in Ok (Some s) else Ok None in
    Ok [ngram_feature (Z.to_nat n) gaz st].

  (** features.rs:183-209 *)
  Definition shape_ngram_feature (n : nat) : Feature :=
    mkF ($"shape_ngram_" ++ show_nat n) (fun tokens i =>
      let e := uadd i n in
      if (i <? e) && (e <=? length tokens) then
        let* ts := slice tokens i e in
        Ok (Some (join [space] (map (fun t => get_shape (tk_value t)) ts)))
      else Ok None).
  (** features.rs:188-194 *)
  Definition build_shape_ngram (a : args) : outcome (list Feature) :=
    let* n := parse_as_u64 a $"n" in Ok [shape_ngram_feature (Z.to_nat n)].

  (** features.rs:216-233 *)
  Definition prefix_feature (k : nat) : Feature :=
    mkF ($"prefix_" ++ show_nat k) (fun tokens i =>
      let* t := index tokens i in
      Ok (get_word_chunk (x_normalize x (tk_value t)) k 0 false)).
  (** features.rs:221-227 *)
  Definition build_prefix (a : args) : outcome (list Feature) :=
    let* n := parse_as_u64 a $"prefix_size" in Ok [prefix_feature (Z.to_nat n)].

  (** features.rs:239-262 *)
  Definition suffix_feature (k : nat) : Feature :=
    mkF ($"suffix_" ++ show_nat k) (fun tokens i =>
      let* t := index tokens i in
      let normalized := x_normalize x (tk_value t) in
      Ok (get_word_chunk normalized k (length normalized) true)).
  (** features.rs:244-250 *)
  Definition build_suffix (a : args) : outcome (list Feature) :=
    let* n := parse_as_u64 a $"suffix_size" in Ok [suffix_feature (Z.to_nat n)].

  (** features.rs:417-434; [c], [b]: current character and byte index *)
  Fixpoint transform_tokens_from (stemmer : option (str -> str)) (c b : nat) (tokens : list token) : list token :=
    match tokens with
    | [] => []
    | t :: r =>
        let v := stem_normalize stemmer (tk_value t) in
        mkTok v (b, b + byte_len v) (c, c + length v)
        :: transform_tokens_from stemmer (c + length v + 1) (b + byte_len v + 1) r
    end.
  (** features.rs:417-434 *)
  Definition transform_tokens (tokens : list token) (stemmer : option (str -> str)) : list token :=
    transform_tokens_from stemmer 0 0 tokens.

  (** features.rs:311-322 and 364-375: the prefix of the scheme for token [i], in the first
      entity range that overlaps it. *)
  Definition entity_prefix (scheme : TaggingScheme) (tokens : list token) (i : nat) (ranges : list range)
      : outcome (option str) :=
    let* t := index tokens i in
    match find (fun r => ranges_overlap r (tk_char_range t)) ranges with
    | None => Ok None
    | Some r =>
        let indexes := filter (fun j => match nth_error tokens j with
                                        | Some tj => ranges_overlap (tk_char_range tj) r
                                        | None => false
                                        end) (seq 0 (length tokens)) in
        let* p := get_scheme_prefix i indexes scheme in Ok (Some p)
    end.

  (** features.rs:271-274, 307-323.  The token is looked up only when an entity was found;
      the index is in bounds in all calls. *)
  Definition entity_match_feature (entity : str) (scheme : TaggingScheme) (stemmer : option (str -> str))
      (parser : CustomParser) : Feature :=
    mkF ($"entity_match_" ++ entity) (fun tokens i =>
      let normalized := transform_tokens tokens stemmer in
      let* text := initial_string_from_tokens normalized in
      let* es := parser text (Some [entity]) 0 in
      entity_prefix scheme normalized i (map ce_range es)).

  (** features.rs:276-305; [as u8] keeps the low byte. *)
  Definition build_entity_match (a : args) (res : Resources) : outcome (list Feature) :=
    let* entities := parse_as_vec_string a $"entities" in
    let* code := parse_as_u64 a $"tagging_scheme_code" in
    let* scheme := scheme_from_u8 (Z.to_nat (code mod 256)) in
    let* stem := parse_as_bool a $"use_stemming" in
    let* st := if stem then let* s := ok_or EOther (rs_stemmer res) in Ok (Some s) else Ok None in
    Ok (map (fun e => entity_match_feature e scheme st (rs_custom res)) entities).

  (** features.rs:332-339, 362-376 *)
  Definition builtin_match_feature (k : kind) (scheme : TaggingScheme) (parser : BuiltinParser) : Feature :=
    mkF ($"builtin_entity_match_" ++ k) (fun tokens i =>
      let* text := initial_string_from_tokens tokens in
      let* es := parser text (Some [k]) true 0 in
      entity_prefix scheme tokens i (map be_range es)).

  (** features.rs:341-360 *)
  Definition build_builtin_match (a : args) (res : Resources) : outcome (list Feature) :=
    let* labels := parse_as_vec_string a $"entity_labels" in
    let* code := parse_as_u64 a $"tagging_scheme_code" in
    let* scheme := scheme_from_u8 (Z.to_nat (code mod 256)) in
    mapM (fun l => let* k := ok_or EOther (x_kind_of_identifier x l) in
                   Ok (builtin_match_feature k scheme (rs_builtin res))) labels.

  (** features.rs:384-387, 410-414 *)
  Definition word_cluster_feature (name : str) (clusterer : str -> option str) : Feature :=
    mkF ($"word_cluster_" ++ name) (fun tokens i =>
      let* t := index tokens i in Ok (clusterer (x_lower x (tk_value t)))).

  (** features.rs:389-408 *)
  Definition build_word_cluster (a : args) (res : Resources) : outcome (list Feature) :=
    let* name := parse_as_string a $"cluster_name" in
    let* c := ok_or EOther (sget name (rs_clusterers res)) in
    Ok [word_cluster_feature name c].

  (** ** feature_processor.rs *)

  (** src/models/slot_filler.rs:22-27 *)
  Record FeatureFactory := mkFF { ff_name : str; ff_offsets : list Z; ff_args : args }.

  (** feature_processor.rs:56-59 *)
  Record FeatureOffsetter := mkFO { fo_feature : Feature; fo_offsets : list Z }.

  (** macros.rs:27-41 and feature_processor.rs:97-109 *)
  Definition get_features (f : FeatureFactory) (res : Resources) : outcome (list FeatureOffsetter) :=
    let is n := str_eqb (ff_name f) n in
    let* fs := if is $"is_digit" then Ok [is_digit_feature]
               else if is $"length" then Ok [length_feature]
               else if is $"is_first" then Ok [is_first_feature]
               else if is $"is_last" then Ok [is_last_feature]
               else if is $"ngram" then build_ngram (ff_args f) res
               else if is $"shape_ngram" then build_shape_ngram (ff_args f)
               else if is $"prefix" then build_prefix (ff_args f)
               else if is $"suffix" then build_suffix (ff_args f)
               else if is $"entity_match" then build_entity_match (ff_args f) res
               else if is $"builtin_entity_match" then build_builtin_match (ff_args f) res
               else if is $"word_cluster" then build_word_cluster (ff_args f) res
               else Err EOther in
    Ok (map (fun ft => mkFO ft (ff_offsets f)) fs).

  (** feature_processor.rs:17-32 *)
  Definition processor_new (factories : list FeatureFactory) (res : Resources) : outcome (list FeatureOffsetter) :=
    let* l := mapM (fun f => get_features f res) factories in Ok (concat l).

End WithExt.

(** feature_processor.rs:62-76 *)
Definition offset_key (name : str) (o : Z) : str :=
  if (o =? 0)%Z then name else name ++ $"[" ++ show_signed o ++ $"]".

(** feature_processor.rs:42-48: one offset of one feature of token [i]; arithmetic on
    [i32] wraps (release build). *)
Definition push_offset (n i : nat) (name value : str) (acc : outcome (list (list (str * str)))) (o : Z)
    : outcome (list (list (str * str))) :=
  let* fs := acc in
  let d := as_i32 (as_i32 (Z.of_nat i) - o) in
  if ((0 <=? d) && (d <? as_i32 (Z.of_nat n)))%Z
  then update_at (fun l => l ++ [(offset_key name o, value)]) (as_usize d) fs
  else Ok fs.

(** feature_processor.rs:40-50: one feature, for token [i] *)
Definition push_feature (tokens : list token) (fo : FeatureOffsetter)
    (acc : outcome (list (list (str * str)))) (i : nat) : outcome (list (list (str * str))) :=
  let* fs := acc in
  let* v := ft_compute (fo_feature fo) tokens i in
  match v with
  | Some value => fold_left (push_offset (length tokens) i (ft_name (fo_feature fo)) value) (fo_offsets fo) (Ok fs)
  | None => Ok fs
  end.

(** feature_processor.rs:37-53 *)
Definition compute_features (fos : list FeatureOffsetter) (tokens : list token)
    : outcome (list (list (str * str))) :=
  fold_left (fun acc fo => fold_left (push_feature tokens fo) (seq 0 (length tokens)) acc)
            fos (Ok (repeat [] (length tokens))).
