(** Model of the deserialized structures of src/models/*.rs,
    src/resources/loading.rs:21-28 and src/entity_parser/custom_entity_parser.rs:33-53,
    155-160, as derived by serde and read by serde_json (external). *)
From Coq Require Import String List NArith ZArith Bool Arith.
From Verif Require Import Base F32 M_Types M_Det M_Lookup M_Feat M_Features M_Filler M_Res.
Import ListNotations.
Local Open Scope nat_scope.

(** ** Derived deserialisation *)

(** What a structure finds for one of its fields: a value; nothing in an object; nothing
    in a (too short) array. *)
Inductive found := Present (j : json) | Absent | AbsentSeq.

(** A known field given twice is an error; other fields are ignored.  The derived
    [Deserialize] of serde (external). *)
Definition find_field (kvs : list (str * json)) (name : str) : outcome found :=
  match filter (fun kv => str_eqb (fst kv) name) kvs with
  | [] => Ok Absent
  | [kv] => Ok (Present (snd kv))
  | _ => Err EIo
  end.

(** A structure is an object, or an array of the values of its fields in order.  The
    derived [Deserialize] of serde (external). *)
Definition fields (names : list str) (j : json) : outcome (list found) :=
  match j with
  | JObj kvs => mapM (find_field kvs) names
  | JArr l => if length names <? length l then Err EIo
              else Ok (map Present l ++ repeat AbsentSeq (length names - length l))
  | _ => Err EIo
  end.

(** [serde::Deserialize] (external). *)
Definition decoder (A : Type) := json -> outcome A.

(** An ordinary field; a field of type [Option]; a field with the attribute [default].
    External. *)
Definition required {A} (d : decoder A) (v : found) : outcome A :=
  match v with Present j => d j | _ => Err EIo end.
(** [Option] in serde (external). *)
Definition nullable {A} (d : decoder A) (j : json) : outcome (option A) :=
  match j with JNull => Ok None | _ => let* a := d j in Ok (Some a) end.
(** [Option] in serde (external). *)
Definition optional {A} (d : decoder A) (v : found) : outcome (option A) :=
  match v with Present j => nullable d j | Absent => Ok None | AbsentSeq => Err EIo end.
(** The attribute [default] of serde (external), src/models/intent_parser.rs:47 and 53. *)
Definition defaulted {A} (a : A) (d : decoder A) (v : found) : outcome A :=
  match v with Present j => d j | _ => Ok a end.

(** Implementation of [Deserialize] by serde (external). *)
Definition d_str : decoder str := fun j => match j with JStr s => Ok s | _ => Err EIo end.
(** Implementation of [Deserialize] by serde (external). *)
Definition d_bool : decoder bool := fun j => match j with JBool b => Ok b | _ => Err EIo end.
(** Implementation of [Deserialize] by serde (external). *)
Definition d_int (lo hi : Z) : decoder Z :=
  fun j => match j with
           | JNum z => if ((lo <=? z) && (z <? hi))%Z then Ok z else Err EIo
           | _ => Err EIo
           end.
(** Implementation of [Deserialize] by serde (external). *)
Definition d_u8 : decoder nat := fun j => let* z := d_int 0 256 j in Ok (Z.to_nat z).
(** Implementation of [Deserialize] by serde (external). *)
Definition d_i32 : decoder Z := d_int (- 2 ^ 31) (2 ^ 31).
(** Implementation of [Deserialize] by serde (external). *)
Definition d_usize : decoder nat := fun j => let* z := d_int 0 (2 ^ 64) j in Ok (Z.to_nat z).
(** Implementation of [Deserialize] by serde (external). *)
Definition d_json : decoder json := fun j => Ok j.
(** Implementation of [Deserialize] by serde (external). *)
Definition d_vec {A} (d : decoder A) : decoder (list A) :=
  fun j => match j with JArr l => mapM d l | _ => Err EIo end.
(** Implementation of [Deserialize] by serde (external). *)
Definition d_pair {A B} (da : decoder A) (db : decoder B) : decoder (A * B) :=
  fun j => match j with
           | JArr [a; b] => let* x := da a in let* y := db b in Ok (x, y)
           | _ => Err EIo
           end.

(** [HashMap]: keys are read from the names of the fields; the last value of a key stays.
    [ord]: iteration order of the map.  Implementation of [Deserialize] by serde (external). *)
Definition d_map {K V} (eqb : K -> K -> bool) (key : str -> option K) (ord : HashOrder) (d : str -> decoder V)
    : decoder (list (K * V)) :=
  fun j => match j with
           | JObj kvs =>
               let* l := mapM (fun kv => let* k := ok_or EIo (key (fst kv)) in
                                         let* v := d (fst kv) (snd kv) in Ok (k, v)) kvs in
               Ok (reorder ord (hcollect eqb l))
           | _ => Err EIo
           end.
(** Maps whose keys are strings. *)
Definition d_smap {V} (ord : HashOrder) (d : decoder V) : decoder (list (str * V)) :=
  d_map str_eqb (fun s => Some s) ord (fun _ => d).

(** [FromStr] of integers (std): an optional sign, at least one digit, within bounds. *)
Definition z_from_str (lo hi : Z) (negative : bool) (s : str) : option Z :=
  let '(sign, digits) :=
    match s with
    | c :: r => if (c =? 43)%N then (1%Z, r)
                else if (c =? 45)%N && negative then ((-1)%Z, r) else (1%Z, s)
    | [] => (1%Z, [])
    end in
  match digits with
  | [] => None
  | _ => let z := (sign * Z.of_N (decimal_value digits))%Z in
         if forallb is_digit digits && ((lo <=? z) && (z <? hi))%Z then Some z else None
  end.
(** Keys of maps that are numbers, read by serde_json (external). *)
Definition i32_from_str : str -> option Z := z_from_str (- 2 ^ 31) (2 ^ 31) true.
(** Keys of maps that are numbers, read by serde_json (external). *)
Definition usize_from_str (s : str) : option nat := option_map Z.to_nat (z_from_str 0 (2 ^ 64) false s).

(** The iteration order of a map of a file: the name of the map and, for maps inside maps,
    the key.  Helper, no counterpart in the code. *)
Definition orders := str -> HashOrder.

(** ** src/models/nlu_engine.rs *)

(** src/models/nlu_engine.rs:7-10 *)
Definition d_model_version : decoder str := fun j =>
  let* fs := fields [$"model_version"] j in
  match fs with [v] => required d_str v | _ => Err EIo end.

(** src/models/nlu_engine.rs:29-32 *)
Definition d_entity : decoder bool := fun j =>
  let* fs := fields [$"automatically_extensible"] j in
  match fs with [v] => required d_bool v | _ => Err EIo end.

(** src/models/nlu_engine.rs:22-27 *)
Definition d_dataset (o : orders) : decoder DatasetMetadata := fun j =>
  let* fs := fields [$"language_code"; $"entities"; $"slot_name_mappings"] j in
  match fs with
  | [l; e; m] =>
      let* l := required d_str l in
      let* e := required (d_smap (o $"entities") d_entity) e in
      let* m := required (d_map str_eqb (fun s => Some s) (o $"slot_name_mappings")
                            (fun k => d_smap (o k) d_str)) m in
      Ok (mkDS l e m)
  | _ => Err EIo
  end.

(** src/models/nlu_engine.rs:12-20; the versions are not used after loading. *)
Record EngineModel := mkEM {
  em_dataset : DatasetMetadata; em_parsers : list str; em_builtin : str; em_custom : str }.
(** src/models/nlu_engine.rs:12-20 *)
Definition d_engine (o : orders) : decoder EngineModel := fun j =>
  let* fs := fields [$"dataset_metadata"; $"intent_parsers"; $"model_version";
                     $"training_package_version"; $"builtin_entity_parser"; $"custom_entity_parser"] j in
  match fs with
  | [d; p; v; t; b; c] =>
      let* d := required (d_dataset o) d in
      let* p := required (d_vec d_str) p in
      let* _ := required d_str v in
      let* _ := required d_str t in
      let* b := required d_str b in
      let* c := required d_str c in
      Ok (mkEM d p b c)
  | _ => Err EIo
  end.

(** ** src/models/processing_unit_metadata.rs:3-12.  The tag is a field
    of an object, where other fields are ignored, or the only element of an array. *)
Inductive unit_name := UDeterministic | ULookup | UProbabilistic | UCrf | ULogReg.
(** src/models/processing_unit_metadata.rs:5-12 *)
Definition unit_of (s : str) : option unit_name :=
  if str_eqb s $"deterministic_intent_parser" then Some UDeterministic
  else if str_eqb s $"lookup_intent_parser" then Some ULookup
  else if str_eqb s $"probabilistic_intent_parser" then Some UProbabilistic
  else if str_eqb s $"crf_slot_filler" then Some UCrf
  else if str_eqb s $"log_reg_intent_classifier" then Some ULogReg
  else None.
(** src/models/processing_unit_metadata.rs:3-12 *)
Definition d_unit : decoder unit_name := fun j =>
  match j with
  | JObj kvs => let* v := find_field kvs $"unit_name" in
                let* s := required d_str v in ok_or EIo (unit_of s)
  | JArr [v] => let* s := d_str v in ok_or EIo (unit_of s)
  | _ => Err EIo
  end.

(** ** src/resources/loading.rs:21-28 *)
Record ResourcesMetadata := mkRM {
  rm_gazetteers : option (list str); rm_clusters : option (list str);
  rm_stems : option str; rm_stop_words : option str }.
(** src/resources/loading.rs:21-28 *)
Definition d_resources : decoder ResourcesMetadata := fun j =>
  let* fs := fields [$"language"; $"gazetteers"; $"word_clusters"; $"stems"; $"stop_words"] j in
  match fs with
  | [l; g; c; s; w] =>
      let* _ := required d_str l in
      let* g := optional (d_vec d_str) g in
      let* c := optional (d_vec d_str) c in
      let* s := optional d_str s in
      let* w := optional d_str w in
      Ok (mkRM g c s w)
  | _ => Err EIo
  end.

(** ** src/entity_parser/custom_entity_parser.rs:33-53, 155-160 *)
Inductive usage := WithStems | WithoutStems | WithAndWithoutStems.
(** src/entity_parser/custom_entity_parser.rs:40-53 *)
Definition d_usage : decoder usage := fun j =>
  let* n := d_u8 j in
  match n with 0 => Ok WithStems | 1 => Ok WithoutStems | 2 => Ok WithAndWithoutStems | _ => Err EIo end.
(** src/entity_parser/custom_entity_parser.rs:155-160 *)
Record CustomMetadata := mkCuM { cu_language : str; cu_directory : str; cu_usage : usage }.
(** src/entity_parser/custom_entity_parser.rs:155-160 *)
Definition d_custom_metadata : decoder CustomMetadata := fun j =>
  let* fs := fields [$"language"; $"parser_directory"; $"parser_usage"] j in
  match fs with
  | [l; d; u] =>
      let* l := required d_str l in
      let* d := required d_str d in
      let* u := required d_usage u in
      Ok (mkCuM l d u)
  | _ => Err EIo
  end.

(** ** src/models/intent_parser.rs *)

(** src/models/intent_parser.rs:46-56, both configurations. *)
Definition d_parser_config : decoder bool := fun j =>
  let* fs := fields [$"ignore_stop_words"] j in
  match fs with [v] => defaulted false d_bool v | _ => Err EIo end.

(** src/models/intent_parser.rs:11-20 *)
Definition d_deterministic (o : orders) : decoder DetModel := fun j =>
  let* fs := fields [$"language_code"; $"patterns"; $"group_names_to_slot_names";
                     $"slot_names_to_entities"; $"stop_words_whitelist"; $"config"] j in
  match fs with
  | [l; p; g; s; w; c] =>
      let* l := required d_str l in
      let* p := required (d_smap (o $"patterns") (d_vec d_str)) p in
      let* g := required (d_smap (o $"group_names_to_slot_names") d_str) g in
      let* s := required (d_map str_eqb (fun k => Some k) (o $"slot_names_to_entities")
                            (fun k => d_smap (o k) d_str)) s in
      let* w := defaulted [] (d_smap (o $"stop_words_whitelist") (d_vec d_str)) w in
      let* c := required d_parser_config c in
      Ok (mkDM l p g s w c)
  | _ => Err EIo
  end.

(** src/models/intent_parser.rs:33-43 *)
Definition d_entity_scope : decoder EntityScope := fun j =>
  let* fs := fields [$"builtin"; $"custom"] j in
  match fs with
  | [b; c] => let* b := required (d_vec d_str) b in
              let* c := required (d_vec d_str) c in Ok (mkES b c)
  | _ => Err EIo
  end.
(** src/models/intent_parser.rs:33-43 *)
Definition d_grouped_scope : decoder GroupedScope := fun j =>
  let* fs := fields [$"intent_group"; $"entity_scope"] j in
  match fs with
  | [g; s] => let* g := required (d_vec d_str) g in
              let* s := required d_entity_scope s in Ok (mkGS g s)
  | _ => Err EIo
  end.

(** src/models/intent_parser.rs:22-31 *)
Definition d_lookup (o : orders) : decoder LookupModel := fun j =>
  let* fs := fields [$"language_code"; $"slots_names"; $"intents_names"; $"map"; $"entity_scopes";
                     $"stop_words_whitelist"; $"config"] j in
  match fs with
  | [l; s; i; m; e; w; c] =>
      let* l := required d_str l in
      let* s := required (d_vec d_str) s in
      let* i := required (d_vec d_str) i in
      let* m := required (d_map Z.eqb i32_from_str (o $"map") (fun _ => d_pair d_i32 (d_vec d_i32))) m in
      let* e := required (d_vec d_grouped_scope) e in
      let* w := required (d_smap (o $"stop_words_whitelist") (d_vec d_str)) w in
      let* c := required d_parser_config c in
      Ok (mkLM l s i m e w c)
  | _ => Err EIo
  end.

(** src/models/intent_parser.rs:57-66: intents and names of their slot fillers. *)
Definition d_filler_metadata : decoder (str * str) := fun j =>
  let* fs := fields [$"intent"; $"slot_filler_name"] j in
  match fs with
  | [i; n] => let* i := required d_str i in let* n := required d_str n in Ok (i, n)
  | _ => Err EIo
  end.
(** src/models/intent_parser.rs:57-60 *)
Definition d_probabilistic : decoder (list (str * str)) := fun j =>
  let* fs := fields [$"slot_fillers"] j in
  match fs with [v] => required (d_vec d_filler_metadata) v | _ => Err EIo end.

(** ** src/models/intent_classifier.rs.  [f32_of] reads a json number as [f32]. *)
Section Numbers.
  Context (f32_of : json -> option f32).
  (** Implementation of [Deserialize] by serde (external). *)
  Definition d_f32 : decoder f32 := fun j => ok_or EIo (f32_of j).

  (** src/models/intent_classifier.rs:7-13 *)
  Record ClassifierModel := mkClM {
    clm_featurizer : option str; clm_intercept : option (list f32);
    clm_coeffs : option (list (list f32)); clm_intents : list (option str) }.
  (** src/models/intent_classifier.rs:7-13 *)
  Definition d_classifier : decoder ClassifierModel := fun j =>
    let* fs := fields [$"featurizer"; $"intercept"; $"coeffs"; $"intent_list"] j in
    match fs with
    | [f; i; c; l] =>
        let* f := optional d_str f in
        let* i := optional (d_vec d_f32) i in
        let* c := optional (d_vec (d_vec d_f32)) c in
        let* l := required (d_vec (nullable d_str)) l in
        Ok (mkClM f i c l)
    | _ => Err EIo
    end.

  (** src/models/intent_classifier.rs:15-20: names of the two vectorizers. *)
  Definition d_featurizer : decoder (str * option str) := fun j =>
    let* fs := fields [$"language_code"; $"tfidf_vectorizer"; $"cooccurrence_vectorizer"] j in
    match fs with
    | [l; t; c] => let* _ := required d_str l in
                   let* t := required d_str t in
                   let* c := optional d_str c in Ok (t, c)
    | _ => Err EIo
    end.

  (** src/models/intent_classifier.rs:22-40 *)
  Definition d_tfidf_config : decoder (bool * option str) := fun j =>
    let* fs := fields [$"use_stemming"; $"word_clusters_name"] j in
    match fs with
    | [s; c] => let* s := required d_bool s in let* c := optional d_str c in Ok (s, c)
    | _ => Err EIo
    end.
  (** src/models/intent_classifier.rs:36-40 *)
  Definition d_sklearn (o : orders) : decoder (list f32 * list (str * nat)) := fun j =>
    let* fs := fields [$"idf_diag"; $"vocab"] j in
    match fs with
    | [i; v] => let* i := required (d_vec d_f32) i in
                let* v := required (d_smap (o $"vocab") d_usize) v in Ok (i, v)
    | _ => Err EIo
    end.
  (** src/models/intent_classifier.rs:22-28 *)
  Definition d_tfidf (o : orders) : decoder TfidfModel := fun j =>
    let* fs := fields [$"language_code"; $"builtin_entity_scope"; $"vectorizer"; $"config"] j in
    match fs with
    | [l; b; v; c] =>
        let* l := required d_str l in
        let* b := required (d_vec d_str) b in
        let* v := required (d_sklearn o) v in
        let* c := required d_tfidf_config c in
        Ok (mkTM l b (fst v) (snd v) (fst c) (snd c))
    | _ => Err EIo
    end.
End Numbers.

(** src/models/intent_classifier.rs:42-56 *)
Definition d_cooc_config : decoder (option nat * bool * bool * option str) := fun j =>
  let* fs := fields [$"window_size"; $"filter_stop_words"; $"keep_order";
                     $"unknown_words_replacement_string"] j in
  match fs with
  | [w; f; k; u] =>
      let* w := optional d_usize w in
      let* f := required d_bool f in
      let* k := required d_bool k in
      let* u := optional d_str u in
      Ok (w, f, k, u)
  | _ => Err EIo
  end.
(** src/models/intent_classifier.rs:42-48 *)
Definition d_cooccurrence (o : orders) : decoder CoocModel := fun j =>
  let* fs := fields [$"language_code"; $"builtin_entity_scope"; $"word_pairs"; $"config"] j in
  match fs with
  | [l; b; p; c] =>
      let* l := required d_str l in
      let* b := required (d_vec d_str) b in
      let* p := required (d_map Nat.eqb usize_from_str (o $"word_pairs") (fun _ => d_pair d_str d_str)) p in
      let* c := required d_cooc_config c in
      let '(w, f, k, u) := c in
      Ok (mkCM l b p w f k u)
  | _ => Err EIo
  end.

(** ** src/models/slot_filler.rs *)

(** src/models/slot_filler.rs:22-27 *)
Definition d_factory (o : orders) : decoder FeatureFactory := fun j =>
  let* fs := fields [$"factory_name"; $"offsets"; $"args"] j in
  match fs with
  | [n; f; a] =>
      let* n := required d_str n in
      let* f := required (d_vec d_i32) f in
      let* a := required (d_smap (o $"args") d_json) a in
      Ok (mkFF n f a)
  | _ => Err EIo
  end.

(** src/models/slot_filler.rs:16-20 *)
Definition d_filler_config (o : orders) : decoder (nat * list FeatureFactory) := fun j =>
  let* fs := fields [$"tagging_scheme"; $"feature_factory_configs"] j in
  match fs with
  | [t; f] => let* t := required d_u8 t in
              let* f := required (d_vec (d_factory o)) f in Ok (t, f)
  | _ => Err EIo
  end.

(** src/models/slot_filler.rs:7-14 *)
Definition d_filler (o : orders) : decoder SlotFillerModel := fun j =>
  let* fs := fields [$"language_code"; $"intent"; $"slot_name_mapping"; $"crf_model_file"; $"config"] j in
  match fs with
  | [l; i; m; c; f] =>
      let* l := required d_str l in
      let* _ := required d_str i in
      let* m := required (d_smap (o $"slot_name_mapping") d_str) m in
      let* c := optional d_str c in
      let* f := required (d_filler_config o) f in
      Ok (mkSFM l m c (fst f) (snd f))
  | _ => Err EIo
  end.
