(** A larger engine on disk for the examples: three intent parsers, a classifier with
    features, a slot filler and a gazetteer with a phrase of two words. *)
From Coq Require Import String List NArith ZArith Bool Arith Lia.
From Coq Require DecimalString.
From Verif Require Import Base F32 M_Types M_Engine M_Det M_Lookup M_Feat M_Prob M_Crf M_Features M_Filler
  M_Cache M_Res M_Fs M_Json M_Load S_Base S_Utils S_Det S_Filler S_Load S_Answer
  P_Base P_Load P_Names P_Demo P_Answer Demo Demo_Rules Demo_Prob Demo_Crf Demo_Load.
Import ListNotations.
Local Open Scope string_scope.
Local Open Scope list_scope.
Local Open Scope nat_scope.

Definition hash_key (s : string) : string :=
  DecimalString.NilZero.string_of_int (Z.to_int (demo_hash $s)).
Definition nums (l : list Z) : json := JArr (map JNum l).

Definition filler_factories : list json :=
  [obj [("factory_name", txt "ngram"); ("offsets", nums [0; -1]%Z);
        ("args", obj [("n", JNum 1); ("common_words_gazetteer_name", JNull); ("use_stemming", JBool false)])];
   obj [("factory_name", txt "is_first"); ("offsets", nums [0]%Z); ("args", obj [])];
   obj [("factory_name", txt "entity_match"); ("offsets", nums [0]%Z);
        ("args", obj [("entities", arr ["room"]); ("tagging_scheme_code", JNum 1); ("use_stemming", JBool false)])]].

Definition home_documents : list (str * json) :=
  [($"E", obj
      [("dataset_metadata", obj
          [("language_code", txt "en");
           ("entities", obj [("room", obj [("automatically_extensible", JBool true)]);
                             ("color", obj [("automatically_extensible", JBool false)])]);
           ("slot_name_mappings", obj [("lightOn", obj [("room", txt "room"); ("color", txt "color")]);
                                       ("setTemp", obj [("room", txt "room"); ("degrees", txt "snips/number")])])]);
       ("intent_parsers", arr ["rules"; "table"; "stats"]); ("model_version", txt "0.20.0");
       ("training_package_version", txt "0.20.1");
       ("builtin_entity_parser", txt "builtin"); ("custom_entity_parser", txt "custom")]);
   ($"R", obj [("language", txt "en"); ("gazetteers", JNull); ("word_clusters", JNull); ("stems", JNull);
               ("stop_words", txt "stop_words")]);
   ($"C", obj [("language", txt "en"); ("parser_directory", txt "parser"); ("parser_usage", JNum 1)]);
   ($"D", obj [("unit_name", txt "deterministic_intent_parser")]);
   ($"DM", obj [("language_code", txt "en");
                ("patterns", obj [("lightOn", arr ["light"]); ("setTemp", arr ["temp"])]);
                ("group_names_to_slot_names", obj [("group0", txt "room"); ("group1", txt "degrees")]);
                ("slot_names_to_entities", obj [("lightOn", obj [("room", txt "room")]);
                   ("setTemp", obj [("room", txt "room"); ("degrees", txt "snips/number")])]);
                ("config", obj [("ignore_stop_words", JBool true)])]);
   ($"T", obj [("unit_name", txt "lookup_intent_parser")]);
   ($"TM", obj [("language_code", txt "en"); ("slots_names", arr ["room"; "degrees"]);
                ("intents_names", arr ["lightOn"; "setTemp"]);
                ("map", obj [(hash_key "brighten %room%", JArr [JNum 0; nums [0]%Z]);
                             (hash_key "%room% at %snips/number%", JArr [JNum 1; nums [0; 1]%Z])]);
                ("entity_scopes", JArr
                   [obj [("intent_group", arr ["lightOn"]); ("entity_scope", obj [("builtin", arr []); ("custom", arr ["room"])])];
                    obj [("intent_group", arr ["setTemp"]);
                         ("entity_scope", obj [("builtin", arr ["snips/number"]); ("custom", arr ["room"])])]]);
                ("stop_words_whitelist", obj []); ("config", obj [("ignore_stop_words", JBool true)])]);
   ($"P", obj [("unit_name", txt "probabilistic_intent_parser")]);
   ($"PM", obj [("slot_fillers", JArr [obj [("intent", txt "lightOn"); ("slot_filler_name", txt "filler_0")];
                                       obj [("intent", txt "setTemp"); ("slot_filler_name", txt "filler_1")]])]);
   ($"L", obj [("unit_name", txt "log_reg_intent_classifier")]);
   ($"LM", obj [("featurizer", txt "featurizer"); ("intercept", nums [0; 1; -1]%Z);
                ("coeffs", JArr [nums [9; -9; 0; 4]%Z; nums [-9; 9; 2; 0]%Z; nums [-1; -1; 0; 0]%Z]);
                ("intent_list", JArr [txt "lightOn"; txt "setTemp"; JNull])]);
   ($"FZ", obj [("language_code", txt "en"); ("tfidf_vectorizer", txt "tfidf"); ("cooccurrence_vectorizer", txt "pairs")]);
   ($"V", obj [("language_code", txt "en"); ("builtin_entity_scope", arr ["snips/number"]);
               ("vectorizer", obj [("idf_diag", nums [1; 2; 1]%Z);
                                   ("vocab", obj [("turn", JNum 0); ("set", JNum 1);
                                                  ("builtinentityfeaturesnipsnumber", JNum 2)])]);
               ("config", obj [("use_stemming", JBool false); ("word_clusters_name", JNull)])]);
   ($"W", obj [("language_code", txt "en"); ("builtin_entity_scope", arr ["snips/number"]);
               ("word_pairs", obj [("0", arr ["turn"; "ROOM"])]);
               ("config", obj [("window_size", JNull); ("filter_stop_words", JBool true); ("keep_order", JBool true);
                               ("unknown_words_replacement_string", JNull)])]);
   ($"S", obj [("unit_name", txt "crf_slot_filler")]);
   ($"SM", obj [("language_code", txt "en"); ("intent", txt "lightOn"); ("slot_name_mapping", obj [("room", txt "room")]);
                ("crf_model_file", txt "model.crfsuite");
                ("config", obj [("tagging_scheme", JNum 1); ("feature_factory_configs", JArr filler_factories)])]);
   ($"SN", obj [("language_code", txt "en"); ("intent", txt "setTemp"); ("slot_name_mapping", obj []);
                ("crf_model_file", JNull);
                ("config", obj [("tagging_scheme", JNum 2); ("feature_factory_configs", JArr [])])])].

(** The words of [demo_voc], and a phrase. *)
Definition phrase : str := $"living room".
Definition home_gaz : str -> option (list str) -> nat -> outcome (list CustomEntity) := fun s scope _ =>
  Ok (flat_map (fun t => flat_map (fun v =>
        if str_eqb (tk_value t) (fst v) && match scope with Some l => smem (snd (snd v)) l | None => true end
        then [mkCE (tk_value t) (fst (snd v)) [] (tk_char_range t) (snd (snd v))] else []) demo_voc) (demo_tokenize s)
      ++ flat_map (fun i =>
        if str_eqb (substring s (i, i + length phrase)) phrase && match scope with Some l => smem $"room" l | None => true end
        then [mkCE phrase $"the living room" [] (i, i + length phrase) $"room"] else []) (seq 0 (length s))).

Definition home_f32 (j : json) : option f32 := match j with JNum z => Some (f32_of_Z z) | _ => None end.
Definition home_loader : Loader :=
  mkLoader (fun c => sget c home_documents) home_f32 demo_lang (fun _ => $"en") demo_compile
           (fun _ _ => Ok (fun s kinds alts => demo_builtin s kinds false alts))
           (fun _ _ => Ok home_gaz)
           (fun f p => match f (resolve p) with Some (File _) => Ok demo_tagger | _ => Err EIo end).

Definition home_files : list (list str * str) :=
  [(at_ "e/nlu_engine.json", $"E");
   (at_ "e/resources/en/metadata.json", $"R");
   (at_ "e/resources/en/stop_words.txt", $"the" ++ [newline] ++ $"please");
   (at_ "e/custom/metadata.json", $"C");
   (at_ "e/rules/metadata.json", $"D"); (at_ "e/rules/intent_parser.json", $"DM");
   (at_ "e/table/metadata.json", $"T"); (at_ "e/table/intent_parser.json", $"TM");
   (at_ "e/stats/metadata.json", $"P"); (at_ "e/stats/intent_parser.json", $"PM");
   (at_ "e/stats/intent_classifier/metadata.json", $"L");
   (at_ "e/stats/intent_classifier/intent_classifier.json", $"LM");
   (at_ "e/stats/intent_classifier/featurizer/featurizer.json", $"FZ");
   (at_ "e/stats/intent_classifier/featurizer/tfidf/vectorizer.json", $"V");
   (at_ "e/stats/intent_classifier/featurizer/pairs/vectorizer.json", $"W");
   (at_ "e/stats/filler_0/metadata.json", $"S"); (at_ "e/stats/filler_0/slot_filler.json", $"SM");
   (at_ "e/stats/filler_0/model.crfsuite", $"binary");
   (at_ "e/stats/filler_1/metadata.json", $"S"); (at_ "e/stats/filler_1/slot_filler.json", $"SN")].
Definition home : fs := files home_files.

Definition load_home : outcome Engine :=
  from_path demo_ext demo_shape no_ngrams demo_math home_loader (fun _ _ => id_order) (fun _ _ => id_order) home dir_e.
Definition home_engine : Engine := get_ok no_engine load_home.
Lemma home_eq : load_home = Ok home_engine.
Proof. apply get_ok_eq. vm_compute. reflexivity. Qed.

Definition home_parse (s : string) (n : nat) : ParseResult :=
  get_ok no_result (parse_with_alternatives demo_ext id_order id_order home_engine $s None None n 0).
Definition summary (r : ParseResult) : option str * list (str * range) :=
  (ir_name (ps_intent r), map (fun s => (sl_raw_value s, sl_range s)) (ps_slots r)).

Definition summaries (r : ParseResult) : list (option str * list str) :=
  map (fun a => (ir_name (al_intent a), map sl_raw_value (al_slots a))) (ps_alternatives r).

(** One text for each parser. *)
Lemma home_answers :
  summary (home_parse "light on in the KITCHEN" 0) = (Some $"lightOn", [($"KITCHEN", (16, 23))]) /\
  summary (home_parse "please brighten  the  Kitchen" 0) = (Some $"lightOn", [($"Kitchen", (22, 29))]) /\
  summary (home_parse "Turn on the  LIVING   Room now" 2) = (Some $"lightOn", [($"LIVING   Room", (13, 26))]) /\
  summaries (home_parse "Turn on the  LIVING   Room now" 2) = [(Some $"setTemp", []); (None, [])].
Proof. repeat split; vm_compute; reflexivity. Qed.

Lemma home_parse_ok :
  parse_with_alternatives demo_ext id_order id_order home_engine $"Turn on the  LIVING   Room now" None None 2 0 =
  Ok (home_parse "Turn on the  LIVING   Room now" 2).
Proof. apply get_ok_eq. vm_compute. reflexivity. Qed.

Lemma home_doc c j : ld_json home_loader c = Some j -> In (c, j) home_documents.
Proof. apply hget_In. exact str_eqb_spec. Qed.

(** Cases on the document read from a file, keeping those that decode. *)
Ltac doc_cases J D j :=
  repeat (destruct J as [J|J]; [apply (f_equal snd) in J; cbn [snd] in J; subst j; try discriminate D|]); [..|contradiction J].

Lemma home_read {A} f p (d : decoder A) a : read_json home_loader f p d = Ok a ->
  exists c j, In (c, j) home_documents /\ d j = Ok a.
Proof.
  unfold read_json. intros H. bind_inv H. bind_inv H. destruct (ld_json home_loader a0) as [j|] eqn:J; [|discriminate].
  inv E0. exists a0, a1. split; [apply home_doc; exact J|exact H].
Qed.


Lemma home_filler o c j a : In (c, j) home_documents -> d_filler o j = Ok a -> sm_scheme a = 1 \/ sm_crf_file a = None.
Proof.
  intros J D. cbn [home_documents In] in J. doc_cases J D j; unfold d_filler in D; bind_inv D; vm_compute in E; injection E as <-;
    do 5 bind_inv D; injection D as <-; cbn [sm_scheme sm_crf_file].
  - left. cbn [required] in E3. unfold d_filler_config in E3. bind_inv E3. vm_compute in E4. injection E4 as <-.
    do 2 bind_inv E3. injection E3 as <-. cbn in E4. injection E4 as <-. reflexivity.
  - right. cbn in E2. injection E2 as <-. reflexivity.
Qed.

Lemma home_trained fo f : taggers_trained demo_ext demo_shape home_loader fo f.
Proof.
  intros p res filler tagger H T. unfold load_crf in H. bind_inv H. apply home_read in E as (c & j & J & D).
  apply (home_filler _ _ _ _ J) in D. clear J c j.
  unfold crf_new in H. bind_inv H. bind_inv H. bind_inv H. injection H as <-. cbn [cf_tagger cf_scheme] in *.
  destruct D as [D|D]; rewrite D in *; [|injection E0 as <-; discriminate T].
  injection E as <-. destruct (sm_crf_file a) as [n|]; [|injection E0 as <-; discriminate T].
  bind_inv E0. bind_inv E0. injection E0 as <-. cbn [fst] in T. injection T as ->.
  unfold home_loader in E. cbn [ld_tagger] in E. destruct (f _) as [[]|]; try discriminate. injection E as <-.
  split; apply demo_tagger_ok.
Qed.

Lemma home_gaz_in text kinds alts es e : home_gaz text kinds alts = Ok es -> In e es ->
  wf_range (length text) (ce_range e) /\ ce_value e = substring text (ce_range e).
Proof.
  intros H He. assert (K := f_equal (get_ok []) H). unfold home_gaz, get_ok in K. rewrite <- K in He. clear H K.
  apply in_app_or in He as [He|He].
  - apply in_flat_map in He as (t & Ht & He). apply in_flat_map in He as (v & _ & He).
    destruct (str_eqb _ _ && _); [|contradiction]. destruct He as [<-|[]]. cbn [ce_range ce_value].
    destruct (demo_tokenizer_ok EN text) as [T _]. destruct (T t Ht) as (W & V & _). auto.
  - apply in_flat_map in He as (i & Hi & He). destruct (str_eqb _ phrase) eqn:B; [|contradiction].
    cbn [andb] in He. destruct (match kinds with Some l => _ | None => true end); [|contradiction].
    destruct He as [<-|[]]. cbn [ce_range ce_value]. apply str_eqb_spec in B. split; [|symmetry; exact B].
    assert (Ln := f_equal (@length _) B). unfold substring, rlen, rstart, rend in Ln. cbn [fst snd] in Ln.
    rewrite firstn_length, skipn_length in Ln. replace (length phrase) with 11 in * by reflexivity.
    unfold wf_range, rstart, rend. cbn [fst snd]. lia.
Qed.
Lemma home_gaz_quotes : gazetteer_quotes home_gaz.
Proof. exact home_gaz_in. Qed.
Lemma home_custom : rs_custom (en_resources home_engine) = custom_entities demo_ext EN home_gaz.
Proof. reflexivity. Qed.

Definition no_slot : Slot := mkSlot [] (SVCustom []) [] (0, 0) [] [] None.
Definition found_slot (s : string) : Slot :=
  match get_ok None (extract_slot_with_alternatives demo_ext home_engine $s $"lightOn" $"room" 0) with
  | Some sl => sl | None => no_slot end.
Lemma home_extract (s : string) :
  is_ok (extract_slot_with_alternatives demo_ext home_engine $s $"lightOn" $"room" 0) = true ->
  get_ok None (extract_slot_with_alternatives demo_ext home_engine $s $"lightOn" $"room" 0) <> None ->
  extract_slot_with_alternatives demo_ext home_engine $s $"lightOn" $"room" 0 = Ok (Some (found_slot s)).
Proof.
  intros H N. rewrite (get_ok_eq None _ H) at 1. unfold found_slot. destruct (get_ok _ _); [reflexivity|contradiction].
Qed.

(** The words that are found are in lower case and separated by single blanks. *)
Lemma not_quoted :
  extract_slot_with_alternatives demo_ext home_engine $"in my  Living   ROOM" $"lightOn" $"room" 0 =
    Ok (Some (found_slot "in my  Living   ROOM")) /\
  sl_raw_value (found_slot "in my  Living   ROOM") = $"living room" /\
  sl_range (found_slot "in my  Living   ROOM") = (7, 20) /\
  substring $"in my  Living   ROOM" (7, 20) = $"Living   ROOM".
Proof.
  split; [apply home_extract; [vm_compute; reflexivity|vm_compute; discriminate]|]. repeat split; vm_compute; reflexivity.
Qed.

Lemma home_room : custom_slot home_engine (found_slot "in my  Living   ROOM").
Proof. exists true. vm_compute. reflexivity. Qed.

Lemma plain_case : plain_text demo_ext EN $"in my living room".
Proof.
  split; [vm_compute; reflexivity|]. split; [vm_compute; reflexivity|]. split.
  - intros t H. vm_compute in H. injection H as <-. reflexivity.
  - intros i a b Ha Hb. do 4 (destruct i as [|i]; [vm_compute in Ha, Hb; first [discriminate | injection Ha as <-; injection Hb as <-; reflexivity]|]).
    destruct i; discriminate Ha.
Qed.
Lemma plain_slot : plain_text demo_ext EN phrase.
Proof.
  split; [vm_compute; reflexivity|]. split; [vm_compute; reflexivity|]. split.
  - intros t H. vm_compute in H. injection H as <-. reflexivity.
  - intros i a b Ha Hb. do 2 (destruct i as [|i]; [vm_compute in Ha, Hb; first [discriminate | injection Ha as <-; injection Hb as <-; reflexivity]|]).
    destruct i; discriminate Ha.
Qed.

(** A slot with two blanks between its words: the match covers it, and is refused. *)
Definition spaced_slot : InternalSlot := mkIS $"living  room" (0, 12) $"room" $"room".
Lemma whole_refused :
  exists e, custom_entities demo_ext EN home_gaz (is_value spaced_slot) (Some [$"room"]) 0 = Ok [e] /\
    ce_range e = (0, length (is_value spaced_slot)) /\ ce_value e = phrase /\
    resolve_custom_slot spaced_slot false [] (custom_entities demo_ext EN home_gaz) 0 = Ok None.
Proof. eexists. split; [vm_compute; reflexivity|]. repeat split; vm_compute; reflexivity. Qed.

Lemma custom_not_quoted : exists x en l gaz input intent name s,
  rs_custom (en_resources en) = custom_entities x l gaz /\ gazetteer_quotes gaz /\
  extract_slot_with_alternatives x en input intent name 0 = Ok (Some s) /\
  sl_raw_value s = $"living room" /\ substring input (sl_range s) = $"Living   ROOM".
Proof.
  exists demo_ext, home_engine, EN, home_gaz, $"in my  Living   ROOM", $"lightOn", $"room",
    (found_slot "in my  Living   ROOM").
  destruct not_quoted as (H1 & H2 & H3 & H4). split; [exact home_custom|]. split; [exact home_gaz_quotes|].
  split; [exact H1|]. split; [exact H2|]. rewrite H3. exact H4.
Qed.
