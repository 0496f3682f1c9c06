(** Examples for C93. *)
From Coq Require Import String List NArith ZArith Bool Arith Lia.
From Verif Require Import Base F32 M_Types M_Utils M_Engine M_Det M_Lookup M_Feat M_Prob M_Crf M_Features M_Filler
  M_Cache M_Res M_Fs M_Json M_Load M_Inject S_Base S_Utils S_Det S_Rules S_Filler S_Load S_Match S_Inject S_Answer S_Made S_Declared
  P_Base P_Engine P_Rules P_Load P_Names P_Made P_Demo P_Declared Demo Demo_Rules Demo_Prob Demo_Crf Demo_Load Demo_Home Demo_Made.
Import ListNotations.
Local Open Scope string_scope.
Local Open Scope list_scope.
Local Open Scope nat_scope.

(** ** A check of the agreement *)
Definition declared_b (d : DatasetMetadata) (i n e : str) : bool :=
  match sget i (ds_slot_name_mappings d) with
  | Some mapping => match sget n mapping with Some e' => str_eqb e' e | None => false end
  | None => false
  end.
Definition named_b (d : DatasetMetadata) (i n : str) : bool :=
  match sget i (ds_slot_name_mappings d) with
  | Some mapping => match sget n mapping with Some _ => true | None => false end
  | None => false
  end.
Definition if_ok {A} (o : outcome A) (check : A -> bool) : bool := match o with Ok a => check a | _ => true end.
Definition patterns_b (d : DatasetMetadata) (m : DetModel) : bool :=
  forallb (fun e => forallb (fun ne => declared_b d (fst e) (fst ne) (snd ne)) (snd e)) (dm_slots m).
Definition table_b (d : DatasetMetadata) (m : LookupModel) : bool :=
  forallb (fun e => if_ok (index_i32 (lm_intents_names m) (fst (snd e))) (fun i =>
    forallb (fun k => if_ok (index_i32 (lm_slots_names m) k) (named_b d i)) (snd (snd e)))) (lm_map m).
Definition filler_b (d : DatasetMetadata) (i : str) (m : SlotFillerModel) : bool :=
  forallb (fun ne => declared_b d i (fst ne) (snd ne)) (sm_mapping m).
Definition reads {A} (L : Loader) (fo : path -> orders) (f : fs) (p : path) (name : str) (d : orders -> decoder A) : outcome A :=
  read_json L f (pjoin p name) (d (fo (pjoin p name))).
Definition agree_b (L : Loader) (fo : path -> orders) (f : fs) (p : path) : bool :=
  if_ok (reads L fo f p $"nlu_engine.json" d_engine) (fun m => forallb (fun name =>
    if_ok (reads L fo f (pjoin p name) $"intent_parser.json" d_deterministic) (patterns_b (em_dataset m)) &&
    if_ok (reads L fo f (pjoin p name) $"intent_parser.json" d_lookup) (table_b (em_dataset m)) &&
    if_ok (reads L fo f (pjoin p name) $"intent_parser.json" (fun _ => d_probabilistic)) (fun entries =>
      forallb (fun e => if_ok (reads L fo f (pjoin (pjoin p name) (snd e)) $"slot_filler.json" d_filler)
                              (filler_b (em_dataset m) (fst e))) entries)) (em_parsers m)).

Lemma declared_ok d i n e : declared_b d i n e = true -> declares d i n e.
Proof.
  unfold declared_b, declares. destruct (sget i _) as [mp|]; [|discriminate]. intros H. exists mp. split; [reflexivity|].
  destruct (sget n mp) as [e'|]; [|discriminate]. apply str_eqb_spec in H. subst. reflexivity.
Qed.
Lemma named_ok d i n : named_b d i n = true -> declares_name d i n.
Proof.
  unfold named_b, declares_name, declares. destruct (sget i _) as [mp|]; [|discriminate].
  destruct (sget n mp) as [e'|] eqn:E; [|discriminate]. intros _. exists e', mp. auto.
Qed.
Lemma at_index {A} (l : list A) id a : at_id l id a -> index_i32 l id = Ok a.
Proof.
  unfold index_i32, index, at_id. intros [H1 H2]. destruct (Z.ltb_spec id 0); [lia|]. rewrite H2. reflexivity.
Qed.
Lemma agree_ok L fo f p : agree_b L fo f p = true -> documents_agree L fo f p.
Proof.
  unfold agree_b, documents_agree. intros H m M name Hn. apply says_iff in M. fold (reads L fo f p $"nlu_engine.json" d_engine) in M.
  rewrite M in H. cbn [if_ok] in H. rewrite forallb_forall in H. specialize (H name Hn).
  apply andb_prop in H as [H H3]. apply andb_prop in H as [H1 H2]. repeat split.
  - intros dm D. apply says_iff in D. fold (reads L fo f (pjoin p name) $"intent_parser.json" d_deterministic) in D.
    rewrite D in H1. cbn [if_ok] in H1. unfold patterns_b in H1. rewrite forallb_forall in H1.
    intros i decls n e I1 I2. specialize (H1 _ I1). rewrite forallb_forall in H1. exact (declared_ok _ _ _ _ (H1 _ I2)).
  - intros lm D. apply says_iff in D. fold (reads L fo f (pjoin p name) $"intent_parser.json" d_lookup) in D.
    rewrite D in H2. cbn [if_ok] in H2. unfold table_b in H2. rewrite forallb_forall in H2.
    intros h id ids k i n I1 A1 I2 A2. specialize (H2 _ I1). cbn [fst snd] in H2. rewrite (at_index _ _ _ A1) in H2. cbn [if_ok] in H2.
    rewrite forallb_forall in H2. specialize (H2 _ I2). rewrite (at_index _ _ _ A2) in H2. exact (named_ok _ _ _ H2).
  - intros entries i dir sm D I S. apply says_iff in D. fold (reads L fo f (pjoin p name) $"intent_parser.json" (fun _ => d_probabilistic)) in D.
    rewrite D in H3. cbn [if_ok] in H3. rewrite forallb_forall in H3. specialize (H3 _ I). cbn [fst snd] in H3.
    apply says_iff in S. fold (reads L fo f (pjoin (pjoin p name) dir) $"slot_filler.json" d_filler) in S.
    rewrite S in H3. cbn [if_ok] in H3. unfold filler_b in H3. rewrite forallb_forall in H3.
    intros n e Ie. exact (declared_ok _ _ _ _ (H3 _ Ie)).
Qed.

(** ** The demo engine, whose documents agree *)
Lemma home_agrees : documents_agree home_loader home_orders home dir_e.
Proof. apply agree_ok. vm_compute. reflexivity. Qed.

(** ** Variants of its main document *)
Definition changed (key : string) (j : json) : json -> json := fun d =>
  match d with JObj l => JObj (map (fun e => if str_eqb (fst e) $key then (fst e, j) else e) l) | _ => d end.
Definition with_main (change : json -> json) : Loader :=
  mkLoader (fun c => option_map (fun d => if str_eqb c $"E" then change d else d) (sget c home_documents)) home_f32 demo_lang (fun _ => $"en") demo_compile
           (fun _ _ => Ok (fun s kinds alts => demo_builtin s kinds false alts))
           (fun _ _ => Ok home_gaz)
           (fun f p => match f (resolve p) with Some (File _) => Ok demo_tagger | _ => Err EIo end).

(** Without the table. *)
Definition two_parsers : Loader := with_main (changed "intent_parsers" (arr ["rules"; "stats"])).
Definition load_plain : outcome Engine :=
  from_path demo_ext demo_shape no_ngrams demo_math two_parsers home_orders home_orders home dir_e.
Definition plain_engine : Engine := get_ok no_engine load_plain.
Lemma plain_eq : load_plain = Ok plain_engine.
Proof. apply get_ok_eq. vm_compute. reflexivity. Qed.
Lemma plain_agrees : documents_agree two_parsers home_orders home dir_e.
Proof. apply agree_ok. vm_compute. reflexivity. Qed.
Lemma plain_no_table : no_table two_parsers home_orders home dir_e.
Proof.
  intros m name M Hn U. apply says_iff in M. assert (E := f_equal (fun o => get_ok [] (let* m := o in Ok (em_parsers m))) M).
  cbn [bind get_ok] in E. change (get_ok [] (let* m := read_json two_parsers home (pjoin dir_e $"nlu_engine.json") (d_engine (fun _ => id_order)) in Ok (em_parsers m)) = em_parsers m) in E.
  rewrite <- E in Hn. vm_compute in Hn. unfold unit_at in U. apply says_iff in U.
  destruct Hn as [<-|[<-|[]]]; vm_compute in U; discriminate U.
Qed.
Definition turn_on : str := $"Turn on the  LIVING   Room now".
Definition plain_answer : ParseResult :=
  get_ok no_result (parse_with_alternatives demo_ext id_order id_order plain_engine turn_on None None 1 0).
Lemma plain_answers : parse_with_alternatives demo_ext id_order id_order plain_engine turn_on None None 1 0 = Ok plain_answer.
Proof. apply get_ok_eq. vm_compute. reflexivity. Qed.
Lemma plain_slots : ir_name (ps_intent plain_answer) = Some $"lightOn" /\
  map (fun s => (sl_slot_name s, sl_entity s)) (ps_slots plain_answer) = [($"room", $"room")].
Proof. split; vm_compute; reflexivity. Qed.
Lemma plain_entities : entity_parsers_answer (en_resources plain_engine) $"room" $"in the kitchen".
Proof.
  split.
  - intros kind cached n. unfold entity_parsers_answer.
    change (rs_builtin (en_resources plain_engine) $"in the kitchen" (Some [kind]) cached n)
      with (demo_builtin (x_lower demo_ext $"in the kitchen") (Some [kind]) false n). unfold demo_builtin. eauto.
  - intros n. eexists. vm_compute. reflexivity.
Qed.
Lemma plain_extracts : exists s, extract_slot_with_alternatives demo_ext plain_engine $"in the kitchen" $"lightOn" $"room" 0 = Ok (Some s) /\
  sl_raw_value s = $"kitchen".
Proof. eexists. split; vm_compute; reflexivity. Qed.

(** ** A dataset that does not declare the slots that the parsers find *)
Definition bare : Loader := with_main (changed "dataset_metadata" (obj
  [("language_code", txt "en"); ("entities", obj [("room", obj [("automatically_extensible", JBool true)])]);
   ("slot_name_mappings", obj [("lightOn", obj []); ("setTemp", obj [])])])).
Definition load_bare : outcome Engine :=
  from_path demo_ext demo_shape no_ngrams demo_math bare home_orders home_orders home dir_e.
Definition bare_engine : Engine := get_ok no_engine load_bare.
Lemma bare_eq : load_bare = Ok bare_engine.
Proof. apply get_ok_eq. vm_compute. reflexivity. Qed.
Definition bare_answer : ParseResult :=
  get_ok no_result (parse_with_alternatives demo_ext id_order id_order bare_engine turn_on None None 0 0).
Lemma bare_answers : parse_with_alternatives demo_ext id_order id_order bare_engine turn_on None None 0 0 = Ok bare_answer.
Proof. apply get_ok_eq. vm_compute. reflexivity. Qed.
Definition bare_slot : Slot := hd no_slot (ps_slots bare_answer).
Lemma undeclared : exists x shape ngrams mx L fo uo f p en o1 o2 input res s e,
  from_path x shape ngrams mx L fo uo f p = Ok en /\
  parse_with_alternatives x o1 o2 en input None None 0 0 = Ok res /\ slot_of_answer res (Some $"lightOn") s /\
  ~ declares_name (en_dataset en) $"lightOn" (sl_slot_name s) /\
  extract_slot x en input $"lightOn" (sl_slot_name s) = Err e.
Proof.
  exists demo_ext, demo_shape, no_ngrams, demo_math, bare, home_orders, home_orders, home, dir_e, bare_engine, id_order, id_order, turn_on,
    bare_answer, bare_slot.
  assert (N : sl_slot_name bare_slot = $"room") by (vm_compute; reflexivity).
  eexists. split; [exact bare_eq|]. split; [exact bare_answers|]. split.
  - assert (I : Some $"lightOn" = ir_name (ps_intent bare_answer)) by (vm_compute; reflexivity). rewrite I. constructor.
    unfold bare_slot. assert (Ln : length (ps_slots bare_answer) = 1) by (vm_compute; reflexivity).
    destruct (ps_slots bare_answer) as [|s l]; [discriminate|left; reflexivity].
  - rewrite N. split.
    + intros (e & mp & M1 & M2). vm_compute in M1. injection M1 as <-. discriminate M2.
    + vm_compute. reflexivity.
Qed.

(** ** Two entities whose names differ only by letter case *)
Definition paint_documents : list (str * json) :=
  [($"E", obj
      [("dataset_metadata", obj
          [("language_code", txt "en");
           ("entities", obj [("place", obj [("automatically_extensible", JBool true)]);
                             ("Place", obj [("automatically_extensible", JBool true)])]);
           ("slot_name_mappings", obj [("paint", obj [("inside", txt "place"); ("outside", txt "Place")])])]);
       ("intent_parsers", arr ["table"]); ("model_version", txt "0.20.0");
       ("training_package_version", txt "0.20.1");
       ("builtin_entity_parser", txt "builtin"); ("custom_entity_parser", txt "custom")]);
   ($"TM", obj [("language_code", txt "en"); ("slots_names", arr ["inside"; "outside"]);
                ("intents_names", arr ["paint"]);
                ("map", obj [(hash_key "paint %place%", JArr [JNum 0; nums [0]%Z])]);
                ("entity_scopes", JArr
                   [obj [("intent_group", arr ["paint"]); ("entity_scope", obj [("builtin", arr []); ("custom", arr ["place"; "Place"])])]]);
                ("stop_words_whitelist", obj []); ("config", obj [("ignore_stop_words", JBool true)])])].
Definition paint_words : list (str * (str * str)) :=
  [($"kitchen", ($"kitchen", $"place")); ($"garden", ($"garden", $"Place"))].
Definition paint_loader : Loader :=
  mkLoader (fun c => match sget c paint_documents with Some j => Some j | None => sget c home_documents end)
           home_f32 demo_lang (fun _ => $"en") demo_compile
           (fun _ _ => Ok (fun s kinds alts => demo_builtin s kinds false alts))
           (fun _ _ => Ok (demo_custom paint_words)) (fun _ _ => Err EIo).
Definition load_paint : outcome Engine :=
  from_path demo_ext demo_shape no_ngrams demo_math paint_loader home_orders home_orders home dir_e.
Definition paint_engine : Engine := get_ok no_engine load_paint.
Lemma paint_eq : load_paint = Ok paint_engine.
Proof. apply get_ok_eq. vm_compute. reflexivity. Qed.
Lemma paint_agrees : documents_agree paint_loader home_orders home dir_e.
Proof. apply agree_ok. vm_compute. reflexivity. Qed.
Definition paint_answer : ParseResult :=
  get_ok no_result (parse_with_alternatives demo_ext id_order id_order paint_engine $"Paint the garden" None None 0 0).
Lemma paint_answers : parse_with_alternatives demo_ext id_order id_order paint_engine $"Paint the garden" None None 0 0 = Ok paint_answer.
Proof. apply get_ok_eq. vm_compute. reflexivity. Qed.
Definition paint_slot : Slot := hd no_slot (ps_slots paint_answer).
Lemma confused : exists x shape ngrams mx L fo uo f p en o1 o2 input res s,
  documents_agree L fo f p /\ from_path x shape ngrams mx L fo uo f p = Ok en /\
  parse_with_alternatives x o1 o2 en input None None 0 0 = Ok res /\ slot_of_answer res (Some $"paint") s /\
  declares (en_dataset en) $"paint" (sl_slot_name s) $"place" /\ sl_entity s = $"Place".
Proof.
  exists demo_ext, demo_shape, no_ngrams, demo_math, paint_loader, home_orders, home_orders, home, dir_e, paint_engine, id_order, id_order,
    $"Paint the garden", paint_answer, paint_slot.
  split; [exact paint_agrees|]. split; [exact paint_eq|]. split; [exact paint_answers|].
  assert (N : sl_slot_name paint_slot = $"inside") by (vm_compute; reflexivity). rewrite N. split; [|split].
  - assert (I : Some $"paint" = ir_name (ps_intent paint_answer)) by (vm_compute; reflexivity). rewrite I. constructor.
    unfold paint_slot. assert (Ln : length (ps_slots paint_answer) = 1) by (vm_compute; reflexivity).
    destruct (ps_slots paint_answer) as [|s l]; [discriminate|left; reflexivity].
  - eexists. split; vm_compute; reflexivity.
  - vm_compute. reflexivity.
Qed.
