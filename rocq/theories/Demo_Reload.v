(** An engine with intent parsers whose gazetteer parsers are on disk, before and after an
    injection. *)
From Coq Require Import String List NArith ZArith Bool Arith Lia.
From Verif Require Import Base F32 M_Types M_Engine M_Det M_Lookup M_Feat M_Prob M_Features M_Filler
  M_Cache M_Res M_Fs M_Json M_Load M_Inject S_Base S_Engine S_Res S_Load S_Inject S_Answer S_Reload
  P_Base P_Load P_Names P_Inject P_Effects P_Injection P_Reload
  Demo Demo_Rules Demo_Prob Demo_Crf Demo_Load Demo_Home Demo_Inject.
Import ListNotations.
Local Open Scope string_scope.
Local Open Scope list_scope.
Local Open Scope nat_scope.

Definition re_documents : list (str * json) := home_documents ++
  [($"B", obj [("language", txt "en"); ("gazetteer_parser", txt "gaz")]);
   ($"BG", obj [("parsers_metadata", JArr [parser_doc "snips/musicArtist" "artist"])]);
   ($"CG", obj [("parsers_metadata", JArr [parser_doc "room" "p1"; parser_doc "color" "p2"])])].
Definition re_doc (c : str) : option json := sget c re_documents.

(** The values in the file of a parser: one "raw=resolved" a line. *)
Fixpoint cut (sep : N) (s : str) : list str :=
  match s with
  | [] => [[]]
  | c :: s => if (c =? sep)%N then [] :: cut sep s
              else match cut sep s with w :: l => (c :: w) :: l | [] => [[c]] end
  end.
Definition values_in (g : str) : list (str * str) :=
  flat_map (fun line => match cut 61 line with [a; b] => [(a, b)] | _ => [] end) (cut newline g).
Definition in_scope (scope : option (list str)) (e : str) : bool := match scope with Some l => smem e l | None => true end.
Definition re_custom (gs : list (str * str)) : str -> option (list str) -> nat -> outcome (list CustomEntity) :=
  fun s scope _ => Ok (flat_map (fun t => flat_map (fun g => flat_map (fun v =>
    if str_eqb (tk_value t) (fst v) && in_scope scope (fst g)
    then [mkCE (tk_value t) (snd v) [] (tk_char_range t) (fst g)] else []) (values_in (snd g))) gs) (demo_tokenize s)).
Definition re_builtin (gs : list (str * str)) : str -> option (list kind) -> nat -> outcome (list BuiltinEntity) :=
  fun s scope n => let* numbers := demo_builtin s scope false n in
    Ok (numbers ++ flat_map (fun t => flat_map (fun g => flat_map (fun v =>
    if str_eqb (tk_value t) (fst v) && in_scope scope (fst g)
    then [mkBE (tk_value t) (tk_char_range t) (SVBuiltin (snd v)) [] (fst g)] else []) (values_in (snd g))) gs) (demo_tokenize s)).

Definition re_json {A} (f : fs) (q : path) (d : decoder A) : outcome A :=
  match f (resolve q) with Some (File c) => let* j := ok_or EIo (re_doc c) in d j | _ => Err EIo end.
Definition re_parsers (f : fs) (dir : path) : outcome (list (str * str)) :=
  let* ps := re_json f (pjoin dir $"metadata.json") d_gazetteer_metadata in
  mapM (fun ep => let* g := inj_load f (pjoin dir (snd ep)) in Ok (fst ep, g)) ps.
Definition re_loader : Loader :=
  mkLoader re_doc home_f32 demo_lang (fun _ => $"en") demo_compile
    (fun f dir => let* b := re_json f (pjoin dir $"metadata.json") d_builtin_metadata in
                  match b with Some name => let* gs := re_parsers f (pjoin dir name) in Ok (re_builtin gs) | None => Ok (re_builtin []) end)
    (fun f dir => let* gs := re_parsers f dir in Ok (re_custom gs))
    (ld_tagger home_loader).

Lemma re_json_ok {A} f q (d : decoder A) j : json_at re_loader f q j -> re_json f q d = d j.
Proof. intros (c & F & J). cbn [re_loader ld_json] in J. unfold re_json. rewrite F, J. reflexivity. Qed.
Lemma re_parsers_ok f dir ps : decodes re_loader f (pjoin dir $"metadata.json") d_gazetteer_metadata ps ->
  forall gs, re_parsers f dir = Ok gs <-> loads demo_gaz f dir ps gs.
Proof.
  intros (j & J & D) gs. unfold re_parsers. rewrite (re_json_ok _ _ _ _ J), D. cbn [bind]. clear D.
  rewrite mapM_ok_Forall2. unfold loads. split; intros F; induction F as [|[e n] [e' g] ps' gs' H F IH]; constructor; auto; cbn [fst snd demo_gaz gz_load] in *.
  - bind_inv H. inv H. auto.
  - destruct H as [-> ->]. reflexivity.
Qed.
Lemma re_assembled : assembled re_loader demo_gaz re_custom (fun _ => Some re_builtin).
Proof.
  split.
  - intros f dir ps gaz D. cbn [re_loader ld_gazetteer]. split.
    + intros H. bind_inv H. inv H. exists a. split; [|reflexivity]. apply (re_parsers_ok _ _ _ D). exact E.
    + intros (gs & Lo & ->). apply (re_parsers_ok _ _ _ D) in Lo. rewrite Lo. reflexivity.
  - intros f dir j b J. cbn [re_loader ld_builtin]. rewrite (re_json_ok _ _ _ _ J). split.
    + intros ->. cbn [bind]. split; [intros H; inv H; eauto|]. intros (mk & E & ->). inv E. reflexivity.
    + intros name ps -> D. cbn [bind]. split.
      * intros H. bind_inv H. inv H. exists re_builtin, a. split; auto. split; [|reflexivity]. apply (re_parsers_ok _ _ _ D). exact E.
      * intros (mk & gs & E & Lo & ->). inv E. apply (re_parsers_ok _ _ _ D) in Lo. rewrite Lo. reflexivity.
Qed.
Lemma re_taggers : taggers_local re_loader.
Proof.
  intros f f' q S. cbn [re_loader ld_tagger home_loader]. specialize (S []). rewrite app_nil_r in S. rewrite S. reflexivity.
Qed.

Definition re_files : list (list str * str) :=
  [(at_ "e/nlu_engine.json", $"E");
   (at_ "e/resources/en/metadata.json", $"R");
   (at_ "e/resources/en/stop_words.txt", $"the" ++ [newline] ++ $"please");
   (at_ "e/builtin/metadata.json", $"B"); (at_ "e/builtin/gaz/metadata.json", $"BG");
   (at_ "e/builtin/gaz/artist/data", $"queen=Queen" ++ [newline]);
   (at_ "e/custom/metadata.json", $"C"); (at_ "e/custom/parser/metadata.json", $"CG");
   (at_ "e/custom/parser/p1/data", $"kitchen=Kitchen" ++ [newline]);
   (at_ "e/custom/parser/p2/data", $"red=Red" ++ [newline]);
   (at_ "e/rules/metadata.json", $"D"); (at_ "e/rules/intent_parser.json", $"DM");
   (at_ "e/table/metadata.json", $"T"); (at_ "e/table/intent_parser.json", $"TM");
   (at_ "e/stats/metadata.json", $"P"); (at_ "e/stats/intent_parser.json", $"PM");
   (at_ "e/stats/intent_classifier/metadata.json", $"L");
   (at_ "e/stats/intent_classifier/intent_classifier.json", $"LM");
   (at_ "e/stats/intent_classifier/featurizer/featurizer.json", $"FZ");
   (at_ "e/stats/intent_classifier/featurizer/tfidf/vectorizer.json", $"V");
   (at_ "e/stats/intent_classifier/featurizer/pairs/vectorizer.json", $"W");
   (at_ "e/stats/filler_0/metadata.json", $"S"); (at_ "e/stats/filler_0/slot_filler.json", $"SM");
   (at_ "e/stats/filler_0/model.crfsuite", $"binary");
   (at_ "e/stats/filler_1/metadata.json", $"S"); (at_ "e/stats/filler_1/slot_filler.json", $"SN")].
Definition re_tree : fs := files re_files.
Definition re_meta : Meta := mkMeta (get_ok (mkEM (mkDS [] [] []) [] [] []) (d_engine (fun _ => id_order) (match re_doc $"E" with Some j => j | None => JNull end)))
  EN (Some ($"gaz", [($"snips/musicArtist", $"artist")])) (mkCuM $"en" $"parser" WithoutStems)
  [($"room", $"p1"); ($"color", $"p2")].
Lemma re_metadata : metadata re_loader orders0 re_tree dir_e re_meta.
Proof.
  assert (D : forall A (d : decoder A) q c j a, re_tree (resolve q) = Some (File c) -> re_doc c = Some j ->
            d j = Ok a -> decodes re_loader re_tree q d a).
  { intros A d q c j a F J H. exists j. split; auto. exists c. auto. }
  split; [apply (D _ _ _ $"E" (match re_doc $"E" with Some j => j | None => JNull end));
          [vm_compute; reflexivity|vm_compute; reflexivity|apply get_ok_eq; vm_compute; reflexivity]|].
  split; [vm_compute; reflexivity|].
  split; [eapply D; vm_compute; reflexivity|].
  split; [intros n ps E; inv E; eapply D; vm_compute; reflexivity|].
  split; eapply D; vm_compute; reflexivity.
Qed.

Lemma re_parsers_names : em_parsers (me_model re_meta) = [$"rules"; $"table"; $"stats"].
Proof. vm_compute. reflexivity. Qed.
Lemma re_tidy : tidy dir_e re_meta.
Proof.
  split; [|split].
  - cbn [listed re_meta me_custom_parsers me_builtin map app snd].
    repeat (constructor; [repeat (constructor; [dir_apart|]); constructor|]). constructor.
  - intros d q I J. cbn [listed re_meta me_custom_parsers me_builtin map app snd] in I.
    destruct I as [<-|[<-|[<-|[]]]];
      (repeat (destruct J as [<-|J]; [apply not_below; vm_compute; reflexivity|]); contradiction).
  - intros d q I J. unfold unit_dirs in J. rewrite re_parsers_names in J.
    cbn [listed re_meta me_custom_parsers me_builtin map app snd] in I.
    destruct I as [<-|[<-|[<-|[]]]]; (destruct J as [<-|[<-|[<-|[<-|[]]]]]; dir_apart).
Qed.
Lemma re_stay : names_stay re_loader re_tree dir_e re_meta.
Proof.
  split.
  - intros q names j s _ (c & F & J) T. apply (plain_texts_ok _ _ T).
    assert (K : forallb (fun d : str * json => plain_texts (snd d)) re_documents = true) by (vm_compute; reflexivity).
    rewrite forallb_forall in K. apply (K (c, j)). apply (hget_In _ str_eqb_spec). exact J.
  - intros l. repeat split; try discriminate. vm_compute. intuition discriminate.
Qed.

Definition attic : list (str * str) := [($"room", $"Attic"); ($"snips/musicArtist", $"Abba"); ($"room", $"Cellar")].
Definition re_run : effect unit :=
  inject demo_ext re_loader orders0 units0 demo_gaz id_order id_order id_order (request dir_e attic false None) re_tree.
Definition re_after : fs := apply_ops re_tree (fst re_run).
Definition load_re (f : fs) : outcome Engine :=
  from_path demo_ext demo_shape no_ngrams demo_math re_loader orders0 units0 f dir_e.
Definition re_engine : Engine := get_ok no_engine (load_re re_tree).
Definition re_engine' : Engine := get_ok no_engine (load_re re_after).
Lemma re_eq : load_re re_tree = Ok re_engine.
Proof. apply get_ok_eq. vm_compute. reflexivity. Qed.
Lemma re_eq' : load_re re_after = Ok re_engine'.
Proof. apply get_ok_eq. vm_compute. reflexivity. Qed.
Lemma re_done : re_run = (fst re_run, Ok tt).
Proof. vm_compute. reflexivity. Qed.

Definition re_answer (en : Engine) (s : string) : option str * list (str * slot_value) :=
  let r := get_ok no_result (parse_with_alternatives demo_ext id_order id_order en $s None None 0 0) in
  (ir_name (ps_intent r), map (fun s => (sl_raw_value s, sl_value s)) (ps_slots r)).
(** The engine loaded afterwards knows the new value. *)
Lemma re_answers :
  re_answer re_engine "please brighten the ATTIC" = (Some $"lightOn", []) /\
  re_answer re_engine' "please brighten the ATTIC" = (Some $"lightOn", [($"ATTIC", SVCustom $"Attic")]) /\
  re_answer re_engine "please brighten the KITCHEN" = (Some $"lightOn", [($"KITCHEN", SVCustom $"Kitchen")]) /\
  re_answer re_engine' "please brighten the KITCHEN" = (Some $"lightOn", [($"KITCHEN", SVCustom $"Kitchen")]).
Proof. repeat split; vm_compute; reflexivity. Qed.
