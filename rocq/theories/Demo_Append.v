(** Examples for C97. *)
From Coq Require Import String List NArith ZArith Bool Arith.
From Verif Require Import Base F32 M_Types M_Engine M_Det M_Prob M_Features M_Fs M_Json M_Load S_Base S_Engine S_Append
  S_Load S_Made P_Base P_Engine P_Load P_Made P_Demo P_AppendLoad P_Effects Demo Demo_Rules Demo_Prob Demo_Crf Demo_Load Demo_Home Demo_Made Demo_Declared.
Import ListNotations.
Local Open Scope string_scope.
Local Open Scope list_scope.
Local Open Scope nat_scope.

(** A parser that cannot answer, and one that always gives the same answer. *)
Definition broken_parser : IntentParser := mkIP (fun _ _ => Panic) (fun _ => Err EOther) (fun _ _ => Panic).
Definition stubborn_parser : IntentParser :=
  mkIP (fun _ _ => Ok (mkIPR (mkIR (Some $"setTemp") f1) [])) (fun _ => Ok [mkIR (Some $"setTemp") f1]) (fun _ _ => Ok []).

Definition kitchen : str := $"light on in the KITCHEN".
Definition intent_of (e : Engine) (s : str) : option (option str) :=
  get_ok None (let* r := parse_with_alternatives demo_ext id_order id_order e s None None 0 0 in Ok (Some (ir_name (ps_intent r)))).
Lemma intent_answer e s i : intent_of e s = Some i ->
  exists res, parse_with_alternatives demo_ext id_order id_order e s None None 0 0 = Ok res /\ ir_name (ps_intent res) = i.
Proof.
  unfold intent_of. destruct (parse_with_alternatives _ _ _ _ _ _ _ _ _) as [res| |]; cbn [bind get_ok]; try discriminate.
  intros E. injection E as <-. eauto.
Qed.

(** The rules alone understand the first text and not the second. *)
Definition rules_only : Engine := with_parsers home_engine [home_parser 0].
Lemma rules_intents : intent_of rules_only kitchen = Some (Some $"lightOn") /\ intent_of rules_only bright = Some None.
Proof. split; vm_compute; reflexivity. Qed.
Lemma rules_list : is_ok (get_intents id_order rules_only kitchen) = true /\
  is_ok (get_intents id_order (followed_by rules_only [home_parser 1; home_parser 2]) kitchen) = true /\
  match get_slots_with_alternatives demo_ext rules_only kitchen $"lightOn" 0 with Ok [] => false | _ => true end = true.
Proof. repeat split; vm_compute; reflexivity. Qed.
Lemma rules_slots : get_slots_with_alternatives demo_ext rules_only kitchen $"lightOn" 0 <> Ok [].
Proof. intros E. destruct rules_list as (_ & _ & H). rewrite E in H. discriminate H. Qed.

(** A parser in front decides. *)
Lemma stubborn_first : intent_of (with_parsers rules_only (stubborn_parser :: en_parsers rules_only)) kitchen = Some (Some $"setTemp").
Proof. vm_compute. reflexivity. Qed.
Lemma front_decides :
  ~ (forall x o1 o2 en input w b salts q res, parse_with_alternatives x o1 o2 en input w b 0 salts = Ok res -> ir_name (ps_intent res) <> None ->
       parse_with_alternatives x o1 o2 (with_parsers en (q :: en_parsers en)) input w b 0 salts = Ok res).
Proof.
  intros H. destruct (intent_answer _ _ _ (proj1 rules_intents)) as (res & E & I).
  assert (N : ir_name (ps_intent res) <> None) by (rewrite I; discriminate).
  specialize (H _ _ _ _ _ _ _ _ stubborn_parser _ E N). destruct (intent_answer _ _ _ stubborn_first) as (res' & E' & I').
  rewrite H in E'. injection E' as <-. rewrite I in I'. discriminate I'.
Qed.

(** The broken parser after the rules fails the listing of intents. *)
Lemma broken_list : ip_get_intents broken_parser kitchen = Err EOther.
Proof. reflexivity. Qed.

(** ** A directory to which two parsers are added *)
Definition short_document : json :=
  changed "intent_parsers" (arr ["rules"]) (match sget $"E" home_documents with Some j => j | None => JNull end).
Definition short_documents : list (str * json) := ($"E0", short_document) :: home_documents.
Definition short_loader : Loader :=
  mkLoader (fun c => sget c short_documents) home_f32 demo_lang (fun _ => $"en") demo_compile
           (fun _ _ => Ok (fun s kinds alts => demo_builtin s kinds false alts))
           (fun _ _ => Ok home_gaz)
           (fun f p => match f (resolve p) with Some (File _) => Ok demo_tagger | _ => Err EIo end).
Definition short_home : fs := files ((at_ "e/nlu_engine.json", $"E0") :: tl home_files).
Definition load_growing (f : fs) : outcome Engine :=
  from_path demo_ext demo_shape no_ngrams demo_math short_loader home_orders home_orders f dir_e.
Definition short_engine : Engine := get_ok no_engine (load_growing short_home).
Definition grown_engine : Engine := get_ok no_engine (load_growing home).
Lemma short_eq : load_growing short_home = Ok short_engine.
Proof. apply get_ok_eq. vm_compute. reflexivity. Qed.
Lemma grown_eq : load_growing home = Ok grown_engine.
Proof. apply get_ok_eq. vm_compute. reflexivity. Qed.

Definition main_of (f : fs) : EngineModel :=
  get_ok (mkEM (mkDS [] [] []) [] [] []) (read_json short_loader f (pjoin dir_e $"nlu_engine.json") (d_engine (home_orders (pjoin dir_e $"nlu_engine.json")))).
Lemma short_main : file_says short_loader home_orders short_home dir_e $"nlu_engine.json" d_engine (main_of short_home).
Proof. apply says_iff. apply get_ok_eq. vm_compute. reflexivity. Qed.
Lemma grown_main : file_says short_loader home_orders home dir_e $"nlu_engine.json" d_engine (with_names (main_of short_home) [$"table"; $"stats"]).
Proof. apply says_iff. vm_compute. reflexivity. Qed.
Lemma short_same : same_but_main dir_e short_home home.
Proof.
  intros n q N. unfold short_home, home. change home_files with ((at_ "e/nlu_engine.json", $"E") :: tl home_files). cbn [files].
  destruct (list_eqb str_eqb (at_ "e/nlu_engine.json") (resolve dir_e ++ n :: q)) eqn:E; [|reflexivity].
  exfalso. apply names_eqb_spec in E. apply N. apply (f_equal (fun l => nth 1 l [])) in E. symmetry. exact E.
Qed.
Lemma short_local : loaders_local short_loader.
Proof.
  intros f f' q S. repeat split. cbn [short_loader ld_tagger]. specialize (S []). rewrite !app_nil_r in S. rewrite S. reflexivity.
Qed.
Lemma short_plain names j s : json_at short_loader short_home (dir_e ++ map CName names) j -> text_in s j -> plain s.
Proof.
  intros (c & _ & J) T. apply (plain_texts_ok _ _ T).
  assert (K : forallb (fun d : str * json => plain_texts (snd d)) short_documents = true) by (vm_compute; reflexivity).
  rewrite forallb_forall in K. apply (K (c, j)). apply (hget_In _ str_eqb_spec). exact J.
Qed.
Definition folder_c (s : str) : bool :=
  negb (is_absolute s) && forallb (fun c => match c with CUp => false | _ => true end) (components s) &&
  match components s with CName n :: _ => negb (str_eqb n $"nlu_engine.json") | _ => false end.
Lemma folder_ok s : folder_c s = true -> folder s.
Proof.
  unfold folder_c. intros H. apply andb_prop in H as [H N]. apply andb_prop in H as [A C]. split.
  - split; [destruct (is_absolute s); [discriminate A|reflexivity]|]. intros I. rewrite forallb_forall in C. discriminate (C _ I).
  - destruct (components s) as [|[n|] rest]; try discriminate N. exists n, rest. split; [reflexivity|]. intros ->. rewrite str_eqb_refl in N. discriminate N.
Qed.
Lemma short_lang l : folder (ld_lang_name short_loader l).
Proof. apply folder_ok. reflexivity. Qed.
Lemma short_folders : folder (em_builtin (main_of short_home)) /\ folder (em_custom (main_of short_home)) /\
  forall n, In n (em_parsers (main_of short_home)) -> folder n.
Proof.
  split; [apply folder_ok; vm_compute; reflexivity|]. split; [apply folder_ok; vm_compute; reflexivity|].
  assert (K : forallb folder_c (em_parsers (main_of short_home)) = true) by (vm_compute; reflexivity).
  rewrite forallb_forall in K. intros n Hn. apply folder_ok, K, Hn.
Qed.
