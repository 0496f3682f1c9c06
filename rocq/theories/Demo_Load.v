(** A small engine on disk, for the examples of Properties_Load.  The content of a file is
    a short text, which [demo_documents] maps to its document. *)
From Coq Require Import String List NArith ZArith Bool Arith.
From Verif Require Import Base F32 M_Types M_Engine M_Det M_Lookup M_Feat M_Prob M_Features M_Filler
  M_Cache M_Res M_Fs M_Json M_Load S_Base S_Engine S_Res S_Load P_Base P_Load P_Names Demo Demo_Rules Demo_Prob.
Import ListNotations.
Local Open Scope string_scope.
Local Open Scope list_scope.
Local Open Scope nat_scope.

Definition obj (l : list (string * json)) : json := JObj (map (fun kv => ($(fst kv), snd kv)) l).
Definition txt (s : string) : json := JStr $s.
Definition arr (l : list string) : json := JArr (map txt l).

Definition engine_doc (version : string) (parsers : list string) : json := obj
  [("unit_name", txt "nlu_engine");
   ("dataset_metadata", obj
      [("language_code", txt "en");
       ("entities", obj [("room", obj [("automatically_extensible", JBool true)])]);
       ("slot_name_mappings", obj [("lightOn", obj [("room", txt "room")]);
                                   ("setTemp", obj [("room", txt "room"); ("degrees", txt "snips/number")])])]);
   ("intent_parsers", arr parsers); ("model_version", txt version);
   ("training_package_version", txt "0.20.1");
   ("builtin_entity_parser", txt "builtin"); ("custom_entity_parser", txt "custom")].

Definition demo_documents : list (str * json) :=
  [($"E", engine_doc "0.20.0" ["rules"; "stats"]);
   ($"F", engine_doc "0.19.0" ["rules"]);
   ($"G", engine_doc "0.20.0" ["../other"]);
   ($"R", obj [("language", txt "en"); ("gazetteers", arr ["cities.small"; "cities.large"]);
               ("word_clusters", JNull); ("stems", JNull); ("stop_words", txt "stop_words")]);
   ($"C", obj [("language", txt "en"); ("parser_directory", txt "parser"); ("parser_usage", JNum 1)]);
   ($"D", obj [("unit_name", txt "deterministic_intent_parser")]);
   ($"DM", obj [("language_code", txt "en");
                ("patterns", obj [("lightOn", arr ["light"]); ("setTemp", arr ["temp"])]);
                ("group_names_to_slot_names", obj [("group0", txt "room"); ("group1", txt "degrees")]);
                ("slot_names_to_entities", obj [("lightOn", obj [("room", txt "room")]);
                   ("setTemp", obj [("room", txt "room"); ("degrees", txt "snips/number")])]);
                ("config", obj [("ignore_stop_words", JBool true)])]);
   ($"P", obj [("unit_name", txt "probabilistic_intent_parser")]);
   ($"PM", obj [("slot_fillers", JArr [])]);
   ($"L", obj [("unit_name", txt "log_reg_intent_classifier")]);
   ($"LM", obj [("featurizer", JNull); ("intercept", JNull); ("coeffs", JNull);
                ("intent_list", JArr [txt "lightOn"; txt "setTemp"; JNull])])].

Definition demo_loader : Loader :=
  mkLoader (fun c => sget c demo_documents) (fun _ => None) demo_lang (fun _ => $"en") demo_compile
           (fun _ _ => Ok (fun s kinds alts => demo_builtin s kinds false alts))
           (fun _ _ => Ok (demo_custom demo_voc))
           (fun _ _ => Err EOther).

Fixpoint files (l : list (list str * str)) : fs :=
  match l with
  | [] => fun _ => None
  | (p, c) :: r => fun q => if list_eqb str_eqb p q then Some (File c) else files r q
  end.

Definition at_ (s : string) : list str := resolve (components $s).
Definition tree (engine : string) : fs := files
  [(at_ "e/nlu_engine.json", $engine);
   (at_ "e/resources/en/metadata.json", $"R");
   (at_ "e/resources/en/gazetteers/cities.txt", $"rome");
   (at_ "e/resources/en/stop_words.txt", $"the" ++ [newline] ++ $"please");
   (at_ "e/custom/metadata.json", $"C");
   (at_ "e/rules/metadata.json", $"D"); (at_ "e/rules/intent_parser.json", $"DM");
   (at_ "e/stats/metadata.json", $"P"); (at_ "e/stats/intent_parser.json", $"PM");
   (at_ "e/stats/intent_classifier/metadata.json", $"L");
   (at_ "e/stats/intent_classifier/intent_classifier.json", $"LM");
   (at_ "other/metadata.json", $"D"); (at_ "other/intent_parser.json", $"DM")].

Definition dir_e : path := components $"e".
Definition no_ngrams (l : list str) (n : nat) : list str := l.
Definition load_demo (f : fs) : outcome Engine :=
  from_path demo_ext (fun s => s) no_ngrams demo_math demo_loader (fun _ _ => id_order) (fun _ _ => id_order) f dir_e.

Definition no_engine : Engine := demo_engine [].
Definition loaded : Engine := get_ok no_engine (load_demo (tree "E")).
Lemma loaded_eq : load_demo (tree "E") = Ok loaded.
Proof. apply get_ok_eq. vm_compute. reflexivity. Qed.

Lemma files_in l q c : files l q = Some (File c) -> In (q, c) l.
Proof.
  induction l as [|[p d] l IH]; simpl; [discriminate|].
  destruct (list_eqb str_eqb p q) eqn:E.
  - intros H. inv H. left. f_equal. revert E. clear. revert q. induction p as [|a p IH]; intros [|b q]; simpl;
      try discriminate; auto. intros H. apply andb_prop in H as [H1 H2]. apply str_eqb_spec in H1 as ->.
    f_equal. auto.
  - intros H. right. auto.
Qed.

Lemma demo_doc c j : ld_json demo_loader c = Some j -> In (c, j) demo_documents.
Proof. apply hget_In. exact str_eqb_spec. Qed.

Lemma demo_null f : classifiers_with_null demo_loader f.
Proof.
  intros p j m (c & _ & J) D. apply demo_doc in J.
  repeat (destruct J as [J|J]; [apply (f_equal snd) in J; cbn [snd] in J; subst j; try discriminate D|]); [|contradiction].
  inv D. simpl. split; auto with arith.
Qed.

(** Every text of the documents but "G" is a plain name. *)
Fixpoint plain_texts (j : json) : bool :=
  match j with
  | JStr s => negb (is_absolute s) && forallb (fun c => match c with CUp => false | _ => true end) (components s)
  | JArr l => forallb plain_texts l
  | JObj l => forallb (fun kv => plain_texts (snd kv)) l
  | _ => true
  end.
Lemma plain_texts_ok s j : text_in s j -> plain_texts j = true -> plain s.
Proof.
  induction 1 as [|l j I T IH|l k j I T IH]; cbn [plain_texts]; intros H.
  - apply andb_prop in H as [A C]. split; [destruct (is_absolute s); auto|].
    intros I. rewrite forallb_forall in C. discriminate (C _ I).
  - rewrite forallb_forall in H. auto.
  - rewrite forallb_forall in H. apply IH. apply (H (k, j)). exact I.
Qed.
Lemma demo_plain names j s :
  json_at demo_loader (tree "E") (dir_e ++ map CName names) j -> text_in s j -> plain s.
Proof.
  intros (c & F & J) T. apply files_in in F. apply demo_doc in J. apply (plain_texts_ok _ _ T).
  assert (N : c <> $"G").
  { intros ->. cbn [In] in F. repeat (destruct F as [F|F]; [discriminate (f_equal snd F)|]). contradiction. }
  clear F T.
  repeat (destruct J as [J|J];
          [pose proof (f_equal snd J) as K; apply (f_equal fst) in J; cbn [fst snd] in J, K; subst;
           first [vm_compute; reflexivity | exfalso; apply N; reflexivity]|]).
  contradiction.
Qed.

(** The same engine in another file tree. *)
Definition other_tree : fs := fun q =>
  match q with
  | n :: _ => if str_eqb n $"e" then tree "E" q else None
  | [] => None
  end.
Lemma demo_same_below : same_below (resolve dir_e) (tree "E") other_tree.
Proof. intros q. reflexivity. Qed.
Lemma demo_local : loaders_local demo_loader.
Proof. intros f f' p _. auto. Qed.
Lemma demo_lang_plain l : plain (ld_lang_name demo_loader l).
Proof. split; [reflexivity|]. vm_compute. intuition discriminate. Qed.

Lemma only_below_case :
  same_below (resolve dir_e) (tree "E") other_tree /\ loaders_local demo_loader /\
  (forall names j s, json_at demo_loader (tree "E") (dir_e ++ map CName names) j -> text_in s j -> plain s) /\
  (forall l, plain (ld_lang_name demo_loader l)) /\ load_demo other_tree = Ok loaded.
Proof.
  split; [exact demo_same_below|]. split; [exact demo_local|]. split; [exact demo_plain|].
  split; [exact demo_lang_plain|]. rewrite <- loaded_eq. symmetry. unfold load_demo.
  apply from_path_local; [exact demo_same_below|exact demo_local|exact demo_plain|exact demo_lang_plain].
Qed.

(** The parser of "G" is next to the directory of the engine. *)
Definition without_other : fs := fun q => match q with n :: _ => if str_eqb n $"e" then tree "G" q else None | [] => None end.
Lemma escaping_names : exists L f f',
  same_below (resolve dir_e) f f' /\ loaders_local L /\ (forall l, plain (ld_lang_name L l)) /\
  (exists en, from_path demo_ext (fun s => s) no_ngrams demo_math L (fun _ _ => id_order) (fun _ _ => id_order) f dir_e = Ok en) /\
  from_path demo_ext (fun s => s) no_ngrams demo_math L (fun _ _ => id_order) (fun _ _ => id_order) f' dir_e = Err EIo.
Proof.
  exists demo_loader, (tree "G"), without_other. split; [intros q; reflexivity|].
  split; [exact demo_local|]. split; [exact demo_lang_plain|]. split; [|vm_compute; reflexivity].
  exists (get_ok no_engine (load_demo (tree "G"))). apply get_ok_eq. vm_compute. reflexivity.
Qed.
