(** Properties of the slot filler and its features: C30, C37, C38, C39, C54, C55, C56.
    [Print Assumptions] beneath each theorem lists what it rests on. *)
From Coq Require Import String List NArith ZArith Bool Arith Lia.
From Verif Require Import Base M_Types M_Crf M_Feat M_Features M_Filler S_Base S_Utils S_Det S_Crf S_Filler
  P_Crf P_Encode P_Features P_Filler Demo P_Demo Demo_Crf.
Import ListNotations.
Local Open Scope nat_scope.

(** ** C30 *)
Theorem C30_no_tagger : forall cf p toks tags,
  cf_tagger cf = None ->
  ((forall t, In t tags -> t = $"O") -> crf_sequence_probability cf p toks tags = (Ok (f64_of_Z 1), p)) /\
  ((exists t, In t tags /\ t <> $"O") -> crf_sequence_probability cf p toks tags = (Ok (f64_of_Z 0), p)) /\
  forall x text, crf_get_slots x cf p text = Ok [].
Proof. exact no_tagger_probability. Qed.
Print Assumptions C30_no_tagger.

Theorem C30_unknown_tags : forall cf tagger processor toks tags fs labels,
  cf_tagger cf = Some tagger -> cf_processor cf = Some processor ->
  compute_features processor toks = Ok fs ->
  tg_labels tagger = Ok (map encode_tag labels) -> (forall l, In l labels -> unicode l) ->
  labels <> [] \/ tags = [] ->
  exists cleaned, Forall2 (scored_as labels) tags cleaned /\
    fst (crf_sequence_probability cf false toks tags) = tg_probability tagger fs (map encode_tag cleaned).
Proof. exact tagger_probability. Qed.
Print Assumptions C30_unknown_tags.

(** Finding: a model without labels panics, and the slot filler fails ever after. *)
Theorem C30_no_label_panics : forall cf tagger processor toks tags fs,
  cf_tagger cf = Some tagger -> cf_processor cf = Some processor ->
  compute_features processor toks = Ok fs -> tg_labels tagger = Ok [] -> tags <> [] ->
  crf_sequence_probability cf false toks tags = (Panic, true).
Proof. exact no_label_panics. Qed.
Print Assumptions C30_no_label_panics.

Theorem C30_poisoned_fails : forall x cf tagger processor,
  cf_tagger cf = Some tagger -> cf_processor cf = Some processor ->
  (forall toks tags, fst (crf_sequence_probability cf true toks tags) = Panic \/
     exists e, fst (crf_sequence_probability cf true toks tags) = Err e) /\
  (forall toks tags, snd (crf_sequence_probability cf true toks tags) = true) /\
  (forall text, x_tokenize x (cf_lang cf) text <> [] ->
     crf_get_slots x cf true text = Panic \/ exists e, crf_get_slots x cf true text = Err e).
Proof. exact poisoned_fails. Qed.
Print Assumptions C30_poisoned_fails.

Example C30_case :
  cf_tagger no_filler = None /\
  cf_tagger (demo_filler demo_tagger) = Some demo_tagger /\
  tg_labels demo_tagger = Ok (map encode_tag [$"B-room"; $"I-room"; $"O"]) /\
  clean_tags [$"B-room"; $"I-room"; $"O"] [$"B-room"; $"B-color"] = Ok [encode_tag $"B-room"; encode_tag $"O"] /\
  clean_tags [$"B-room"; $"I-room"] [$"I-room"; $"B-color"] = Ok [encode_tag $"I-room"; encode_tag $"B-room"] /\
  crf_sequence_probability (demo_filler empty_tagger) false room_toks room_tags = (Panic, true).
Proof. exact probability_case. Qed.

(** ** C37 *)
Theorem C37_prefix : forall x k toks i t,
  nth_error toks i = Some t ->
  exists v, ft_compute (prefix_feature x k) toks i = Ok v /\
    let w := x_normalize x (tk_value t) in
    (forall p, v = Some p <-> length p = k /\ exists rest, w = p ++ rest) /\
    (v = None <-> length w < k).
Proof. exact prefix_spec. Qed.
Print Assumptions C37_prefix.

Theorem C37_suffix : forall x k toks i t,
  nth_error toks i = Some t ->
  exists v, ft_compute (suffix_feature x k) toks i = Ok v /\
    let w := x_normalize x (tk_value t) in
    (forall p, v = Some p <-> length p = k /\ exists rest, w = rest ++ p) /\
    (v = None <-> length w < k).
Proof. exact suffix_spec. Qed.
Print Assumptions C37_suffix.

Example C37_case :
  ft_compute (prefix_feature demo_ext 3) room_toks 3 = Ok (Some $"liv") /\
  ft_compute (suffix_feature demo_ext 3) room_toks 3 = Ok (Some $"ing") /\
  ft_compute (suffix_feature demo_ext 3) room_toks 1 = Ok None /\
  ft_compute (prefix_feature demo_ext 0) room_toks 1 = Ok (Some []).
Proof. vm_compute. repeat split. Qed.

(** ** C38 *)
Theorem C38_rebuilt : forall toks, laid_out toks -> toks <> [] ->
  exists s, initial_string_from_tokens toks = Ok s /\ shows_tokens toks s.
Proof. exact rebuild_spec. Qed.
Print Assumptions C38_rebuilt.

Theorem C38_rebuilt_text : forall text toks, tokens_ok text toks -> toks <> [] ->
  exists s n, initial_string_from_tokens toks = Ok s /\ n <= length text /\
    (forall t, In t toks -> rend (tk_char_range t) <= n) /\
    blanked (fun i => exists t, In t toks /\ in_range i (tk_char_range t)) (firstn n text) s.
Proof. exact rebuild_text. Qed.
Print Assumptions C38_rebuilt_text.

Theorem C38_panics : forall toks, initial_string_from_tokens toks = Panic <-> toks = [].
Proof. exact rebuild_panics. Qed.
Print Assumptions C38_panics.

Theorem C38_transformed : forall x st toks, toks <> [] ->
  let out := transform_tokens x toks st in
  let s := join [space] (map (fun t => stem_normalize x st (tk_value t)) toks) in
  initial_string_from_tokens out = Ok s /\
  map tk_value out = map (fun t => stem_normalize x st (tk_value t)) toks /\
  forall t, In t out ->
    rend (tk_char_range t) <= length s /\ substring s (tk_char_range t) = tk_value t /\
    tk_range t = (byte_len (firstn (rstart (tk_char_range t)) s), byte_len (firstn (rend (tk_char_range t)) s)).
Proof. exact transform_rebuild. Qed.
Print Assumptions C38_transformed.

Example C38_case :
  tokens_ok $"  a  bc d " (demo_tokenize $"  a  bc d ") /\ laid_out (demo_tokenize $"  a  bc d ") /\
  initial_string_from_tokens (demo_tokenize $"  a  bc d ") = Ok $"  a  bc d" /\
  initial_string_from_tokens (transform_tokens demo_ext (demo_tokenize $"  A  Bc d ") None) = Ok $"a bc d".
Proof. exact rebuild_case. Qed.

(** ** C39 *)
Theorem C39_offsets : forall toks fos fs,
  (Z.of_nat (length toks) < 2 ^ 31)%Z -> (forall fo o, In fo fos -> In o (fo_offsets fo) -> is_i32 o) ->
  compute_features fos toks = Ok fs ->
  length fs = length toks /\
  forall j row key v, nth_error fs j = Some row ->
    (In (key, v) row <->
     exists fo o i, In fo fos /\ In o (fo_offsets fo) /\ key = key_of (fo_feature fo) o /\
       (Z.of_nat i = Z.of_nat j + o)%Z /\ i < length toks /\
       ft_compute (fo_feature fo) toks i = Ok (Some v)).
Proof. exact features_at_offset. Qed.
Print Assumptions C39_offsets.

(** The features of a text for a slot filler: one list a token; empty lists when the slot
    filler has no tagger. *)
Theorem C39_slot_filler : forall x cf text fs,
  (Z.of_nat (length (x_tokenize x (cf_lang cf) text)) < 2 ^ 31)%Z ->
  (forall fos fo o, cf_processor cf = Some fos -> In fo fos -> In o (fo_offsets fo) -> is_i32 o) ->
  crf_compute_features x cf text = Ok fs ->
  length fs = length (x_tokenize x (cf_lang cf) text) /\
  forall j row key v, nth_error fs j = Some row ->
    (In (key, v) row <->
     exists fos fo o i, cf_processor cf = Some fos /\ In fo fos /\ In o (fo_offsets fo) /\ key = key_of (fo_feature fo) o /\
       (Z.of_nat i = Z.of_nat j + o)%Z /\ i < length (x_tokenize x (cf_lang cf) text) /\
       ft_compute (fo_feature fo) (x_tokenize x (cf_lang cf) text) i = Ok (Some v)).
Proof. exact filler_features. Qed.
Print Assumptions C39_slot_filler.

Theorem C39_total : forall toks fos,
  (Z.of_nat (length toks) < 2 ^ 31)%Z -> (forall fo o, In fo fos -> In o (fo_offsets fo) -> is_i32 o) ->
  ((exists fs, compute_features fos toks = Ok fs) <->
   forall fo i, In fo fos -> i < length toks -> exists v, ft_compute (fo_feature fo) toks i = Ok v).
Proof. exact features_total. Qed.
Print Assumptions C39_total.

Theorem C39_keys_differ : forall f g o o',
  ~ In 91%N (ft_name f) -> ~ In 91%N (ft_name g) -> key_of f o = key_of g o' -> ft_name f = ft_name g /\ o = o'.
Proof. exact key_of_inj. Qed.
Print Assumptions C39_keys_differ.

(** Finding: an entity whose name ends like an offset makes two keys equal. *)
Theorem C39_keys_collide_refuted : forall x sc st parser,
  let f := entity_match_feature x $"room" sc st parser in
  let g := entity_match_feature x $"room[+1]" sc st parser in
  ft_name f <> ft_name g /\ key_of f 1 = key_of g 0.
Proof. exact keys_collide. Qed.
Print Assumptions C39_keys_collide_refuted.

Example C39_case :
  exists p fs, processor_new demo_ext demo_shape demo_factories demo_res = Ok p /\
    compute_features p room_toks = Ok fs /\
    nth_error fs 4 = Some [($"ngram_1[-1]", $"living"); ($"ngram_1", $"room"); ($"ngram_2", $"room now");
                           ($"prefix_2", $"ro")].
Proof. exact offsets_case. Qed.
Example C39_case_filler :
  (exists fs, crf_compute_features demo_ext (demo_filler demo_tagger) room_text = Ok fs /\ length fs = length room_toks) /\
  crf_compute_features demo_ext no_filler $"turn on" = Ok [[]; []].
Proof. split; [eexists; split|]; vm_compute; reflexivity. Qed.

(** ** C54 *)
Theorem C54_filler_never_panics : forall x shape lang_of load_tagger m res cf poisoned text,
  crf_new x shape lang_of load_tagger m res = Ok cf ->
  let toks := x_tokenize x (cf_lang cf) text in
  tokens_ok text toks -> (Z.of_nat (length toks) < 2 ^ 31)%Z ->
  parsers_never_panic res -> sizes_fit (length toks) (sm_factories m) ->
  (forall f o, In f (sm_factories m) -> In o (ff_offsets f) -> is_i32 o) ->
  (forall tg, cf_tagger cf = Some tg -> tagger_ok tg /\ tagger_never_panics tg) ->
  crf_get_slots x cf poisoned text <> Panic.
Proof. exact filler_no_panic. Qed.
Print Assumptions C54_filler_never_panics.

(** Finding: the bound on sizes is needed. *)
Theorem C54_huge_ngram_panics : forall x gaz st toks i n,
  0 < i < length toks -> (Z.of_nat n = 2 ^ 64 - 1)%Z -> (Z.of_nat (length toks) < 2 ^ 63)%Z ->
  ft_compute (ngram_feature x n gaz st) toks i = Panic.
Proof. exact ngram_overflow. Qed.
Print Assumptions C54_huge_ngram_panics.

Example C54_case :
  crf_new demo_ext demo_shape demo_filler_lang (fun _ => Ok demo_tagger) (demo_sfm 1 (Some $"model.crfsuite")) demo_res =
    Ok (demo_filler demo_tagger) /\
  tokens_ok room_text room_toks /\ parsers_never_panic demo_res /\
  sizes_fit (length room_toks) demo_factories /\
  (forall f o, In f demo_factories -> In o (ff_offsets f) -> is_i32 o) /\
  tagger_ok demo_tagger /\ tagger_never_panics demo_tagger.
Proof. exact never_panics_case. Qed.

(** ** C55 *)
Theorem C55_custom_entity : forall x entity sc st parser toks i v text es,
  let moved := transform_tokens x toks st in
  initial_string_from_tokens moved = Ok text -> parser text (Some [entity]) 0 = Ok es ->
  (forall t, In t toks -> stem_normalize x st (tk_value t) <> []) ->
  (forall e, In e es -> rstart (ce_range e) < rend (ce_range e)) ->
  ft_compute (entity_match_feature x entity sc st parser) toks i = Ok v ->
  entity_mark sc moved (map ce_range es) i v.
Proof. exact entity_match_spec. Qed.
Print Assumptions C55_custom_entity.

Theorem C55_builtin_entity : forall k sc parser toks i v text es,
  initial_string_from_tokens toks = Ok text -> parser text (Some [k]) true 0 = Ok es ->
  (forall t, In t toks -> rstart (tk_char_range t) < rend (tk_char_range t)) ->
  (forall e, In e es -> rstart (be_range e) < rend (be_range e)) ->
  ft_compute (builtin_match_feature k sc parser) toks i = Ok v ->
  entity_mark sc toks (map be_range es) i v.
Proof. exact builtin_match_spec. Qed.
Print Assumptions C55_builtin_entity.

(** An entity over three words, and a single one; then BIO. *)
Example C55_case :
  let parser : BuiltinParser := fun s _ _ _ =>
    Ok [mkBE $"the living room" (8, 23) (SVBuiltin []) [] $"k"; mkBE $"turn" (0, 4) (SVBuiltin []) [] $"k"] in
  map (fun i => ft_compute (builtin_match_feature $"k" BILOU parser) room_toks i) (seq 0 6) =
    [Ok (Some $"U-"); Ok None; Ok (Some $"B-"); Ok (Some $"I-"); Ok (Some $"L-"); Ok None] /\
  map (fun i => ft_compute (builtin_match_feature $"k" BIO parser) room_toks i) (seq 0 6) =
    [Ok (Some $"B-"); Ok None; Ok (Some $"B-"); Ok (Some $"I-"); Ok (Some $"I-"); Ok None] /\
  map (fun i => ft_compute (entity_match_feature demo_ext $"room" BIO None (demo_custom demo_voc))
                  (demo_tokenize $"the Kitchen now") i) (seq 0 3) = [Ok None; Ok (Some $"B-"); Ok None].
Proof. vm_compute. repeat split. Qed.

(** ** C56 *)
Theorem C56_ngram : forall x n gaz st toks i, i < length toks -> (Z.of_nat i + Z.of_nat n < 2 ^ 64)%Z ->
  (i + n <= length toks ->
     ft_compute (ngram_feature x n gaz st) toks i =
       Ok (Some (join [space] (map (ngram_word x st gaz) (firstn n (skipn i toks)))))) /\
  (length toks < i + n -> ft_compute (ngram_feature x n gaz st) toks i = Ok None).
Proof. exact ngram_spec. Qed.
Print Assumptions C56_ngram.

Theorem C56_shape_ngram : forall shape n toks i, i < length toks -> (Z.of_nat i + Z.of_nat n < 2 ^ 64)%Z ->
  (0 < n -> i + n <= length toks ->
     ft_compute (shape_ngram_feature shape n) toks i =
       Ok (Some (join [space] (map (fun t => shape (tk_value t)) (firstn n (skipn i toks)))))) /\
  (n = 0 \/ length toks < i + n -> ft_compute (shape_ngram_feature shape n) toks i = Ok None).
Proof. exact shape_ngram_spec. Qed.
Print Assumptions C56_shape_ngram.

Example C56_case :
  ft_compute (ngram_feature demo_ext 2 None None) room_toks 3 = Ok (Some $"living room") /\
  ft_compute (ngram_feature demo_ext 2 (Some (fun w => str_eqb w $"room")) None) room_toks 3 = Ok (Some $"rare_word room") /\
  ft_compute (ngram_feature demo_ext 2 None None) room_toks 5 = Ok None /\
  ft_compute (shape_ngram_feature demo_shape 2) (demo_tokenize $"Living room") 0 = Ok (Some $"Xxx xxx").
Proof. vm_compute. repeat split. Qed.
