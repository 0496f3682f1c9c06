(** The layout of the demo engine, and a text that its second parser was taught. *)
From Coq Require Import String List NArith ZArith Bool Arith Lia.
From Verif Require Import Base F32 M_Types M_Utils M_Engine M_Det M_Lookup M_Feat M_Prob M_Features M_Filler M_Cache M_Res M_Fs M_Json M_Load
  M_Inject S_Base S_Utils S_Engine S_Det S_Rank S_Rules S_Load S_Match S_Inject S_Format S_Cache S_Answer S_Made
  P_Base P_Engine P_Load P_Match P_MatchDet P_Cache P_Custom P_Answer P_Format P_Made P_Demo
  Demo Demo_Rules Demo_Prob Demo_Crf Demo_Load Demo_Match Demo_Home Demo_Safe Demo_Inject.
Import ListNotations.
Local Open Scope string_scope.
Local Open Scope list_scope.
Local Open Scope nat_scope.

Notation home_orders := (fun _ _ => id_order).
Definition bright : str := $"please brighten  the  Kitchen".
Definition only_light : option (list str) := Some [$"lightOn"].

Definition doc (c : string) : json := match sget $c home_documents with Some j => j | None => JNull end.
Definition no_em : EngineModel := mkEM (mkDS [] [] []) [] [] [].
Definition no_dm : DetModel := mkDM [] [] [] [] [] false.
Definition no_lm : LookupModel := mkLM [] [] [] [] [] [] false.
Definition home_model : EngineModel := get_ok no_em (d_engine (fun _ => id_order) (doc "E")).
Definition home_rules : DetModel := get_ok no_dm (d_deterministic (fun _ => id_order) (doc "DM")).
Definition home_table : LookupModel := get_ok no_lm (d_lookup (fun _ => id_order) (doc "TM")).

Lemma home_holds {A} p name (d : orders -> decoder A) c j a :
  home (resolve (pjoin p name)) = Some (File c) -> sget c home_documents = Some j -> d (fun _ => id_order) j = Ok a ->
  file_says home_loader home_orders home p name d a.
Proof. intros F J H. exists j. split; [exists c; split; assumption|exact H]. Qed.
Ltac home_holds c := apply (home_holds _ _ _ $c (doc c)); [vm_compute; reflexivity|vm_compute; reflexivity|].

Lemma home_model_at : file_says home_loader home_orders home dir_e $"nlu_engine.json" d_engine home_model.
Proof. home_holds "E". apply get_ok_eq. vm_compute. reflexivity. Qed.
Lemma home_rules_at : rules_at home_loader home_orders home (pjoin dir_e $"rules") (Patterns home_rules).
Proof.
  split.
  - home_holds "D". reflexivity.
  - home_holds "DM". apply get_ok_eq. vm_compute. reflexivity.
Qed.
Lemma home_table_at : rules_at home_loader home_orders home (pjoin dir_e $"table") (Table home_table).
Proof.
  split.
  - home_holds "T". reflexivity.
  - home_holds "TM". apply get_ok_eq. vm_compute. reflexivity.
Qed.

Lemma home_table_small : small_table home_table.
Proof.
  intros h i ss I. assert (F : forallb (fun e : Z * (Z * list Z) => length (snd (snd e)) <=? 2) (lm_map home_table) = true)
    by (vm_compute; reflexivity).
  rewrite forallb_forall in F. apply F in I. apply Nat.leb_le in I. cbn [snd] in I. lia.
Qed.

Lemma scoped_more text kinds n es e : home_gaz text kinds n = Ok es -> In e es -> In e (get_ok [] (home_gaz text None n)).
Proof.
  intros H I. assert (K := f_equal (get_ok []) H). unfold home_gaz, get_ok in K |- *. rewrite <- K in I. clear H K.
  apply in_app_or in I. apply in_or_app. destruct I as [I|I]; [left|right].
  - apply in_flat_map in I as (t & Ht & I). apply in_flat_map. exists t. split; [exact Ht|].
    apply in_flat_map in I as (v & Hv & I). apply in_flat_map. exists v. split; [exact Hv|].
    destruct (str_eqb _ _); [|contradiction I]. cbn [andb] in *. destruct (match kinds with Some l => _ | None => true end); [exact I|contradiction I].
  - apply in_flat_map in I as (t & Ht & I). apply in_flat_map. exists t. split; [exact Ht|].
    destruct (str_eqb _ _); [|contradiction I]. cbn [andb] in *. destruct (match kinds with Some l => _ | None => true end); [exact I|contradiction I].
Qed.

Lemma Forall2_In_r {A B} (R : A -> B -> Prop) l r b : Forall2 R l r -> In b r -> exists a, In a l /\ R a b.
Proof.
  intros F. induction F as [|a0 b0 l r R0 F IH]; intros I; [contradiction|]. destruct I as [<-|I]; [exists a0; split; [left; reflexivity|exact R0]|].
  destruct (IH I) as (a & Ia & Ra). exists a. split; [right; exact Ia|exact Ra].
Qed.

Lemma bright_externals : externals_ok demo_ext home_loader (en_resources home_engine) bright.
Proof.
  split; [exact demo_tokenizer_ok|]. split; [|split; [|exact demo_groups_fit]].
  - intros f u n es H e He. change (rs_builtin (en_resources home_engine)) with (fun s kinds (_ : bool) alts => demo_builtin (x_lower demo_ext s) kinds false alts) in H.
    cbv beta in H. pose proof (demo_builtin_ok _ _ _ _ _ H _ He) as W. cbn [x_lower demo_ext] in W. rewrite map_length in W. exact W.
  - intros f n out H e He. rewrite home_custom in H. unfold custom_entities in H.
    apply custom_moved in H; [|exact (demo_tokenizer_ok EN _)|vm_compute; reflexivity].
    destruct H as (es & G & F). destruct (Forall2_In_r _ _ _ _ F He) as (g & Ig & (_ & _ & _ & _ & M)).
    apply (scoped_more _ _ _ _ _ G) in Ig.
    assert (K : Forall (fun g => ce_range g = (20, 27)) (get_ok [] (home_gaz (join [space] (map tk_value (x_tokenize demo_ext EN (x_lower demo_ext bright)))) None n)))
      by (vm_compute; repeat constructor).
    rewrite Forall_forall in K. specialize (K g Ig). rewrite K in M.
    specialize (M 3 0 (mkTok $"kitchen" (22, 29) (22, 29)) 3 6 (mkTok $"kitchen" (22, 29) (22, 29))).
    rewrite M; [vm_compute; lia| | |cbn [rend snd]; lia]; (split; [vm_compute; reflexivity|split; [vm_compute; lia|vm_compute; reflexivity]]).
Qed.

Lemma bright_fits : texts_fit demo_ext home_rules (en_resources home_engine) bright.
Proof.
  split; [vm_compute; reflexivity|]. intros i decls kept Hd (scope & es & Sc & (bes & ces & Eb & Ec & ->) & ->).
  apply scope_eq in Sc. subst scope.
  assert (I : In (i, decls) [($"lightOn", [($"room", $"room")]); ($"setTemp", [($"room", $"room"); ($"degrees", $"snips/number")])])
    by (revert Hd; vm_compute; exact (fun h => h)).
  destruct I as [I|[I|[]]]; (assert (D := f_equal snd I); cbn [snd] in D; subst decls; clear I Hd;
    vm_compute in Eb; vm_compute in Ec; injection Eb as <-; injection Ec as <-; vm_compute; reflexivity).
Qed.

(** The parsers of the engine, in order. *)
Definition home_parser (k : nat) : IntentParser := nth k (en_parsers home_engine) (mkIP (fun _ _ => Panic) (fun _ => Panic) (fun _ _ => Panic)).
Lemma home_parser_at k name : nth_error (em_parsers home_model) k = Some name ->
  parser_at demo_ext demo_shape no_ngrams demo_math home_loader home_orders home_orders home (en_resources home_engine)
    (pjoin dir_e name) (home_parser k).
Proof.
  intros N. pose proof home_eq as H. apply engine_iff in H. destruct H as (_ & _ & m & M & _ & F).
  rewrite <- (says_fun _ _ _ _ _ _ _ _ home_model_at M) in F. unfold home_parser. clear M. revert k N.
  induction F as [|n ip l r P F IH]; intros [|k] N; try discriminate; cbn [nth nth_error] in *.
  - injection N as ->. exact P.
  - apply IH. exact N.
Qed.

Definition home_answer (k : nat) (s : str) (wl : option (list str)) : InternalParsingResult :=
  get_ok no_ipr (ip_parse (home_parser k) s wl).

Lemma rules_silent : none_understands demo_ext home_loader home_orders home dir_e (en_resources home_engine) bright only_light [$"rules"].
Proof.
  intros n [<-|[]]. exists (Patterns home_rules). split; [exact home_rules_at|]. split; [exact bright_fits|].
  intros i slots U.
  assert (A : ip_parse (home_parser 0) bright only_light = Ok (home_answer 0 bright only_light)) by (apply get_ok_eq; vm_compute; reflexivity).
  assert (O : forall j s, understood demo_ext home_loader (en_resources home_engine) bright only_light (Patterns home_rules) j s -> j = $"lightOn").
  { intros j s (l & _ & ([E|[]] & _)). symmetry. exact E. }
  pose proof (O i slots U) as ->.
  pose proof (proj2 (proj2 (rules_answer _ _ _ _ _ _ _ _ _ _ _ _ _ _ _ (home_parser_at 0 $"rules" eq_refl) home_rules_at
    bright_externals bright_fits A)) $"lightOn" slots U O) as K.
  apply (f_equal ir_name) in K. vm_compute in K. discriminate K.
Qed.
Lemma table_understands : understood demo_ext home_loader (en_resources home_engine) bright only_light (Table home_table)
  $"lightOn" (pr_slots (home_answer 1 bright only_light)).
Proof.
  assert (A : ip_parse (home_parser 1) bright only_light = Ok (home_answer 1 bright only_light)) by (apply get_ok_eq; vm_compute; reflexivity).
  apply (proj1 (rules_answer _ _ _ _ _ _ _ _ _ _ _ _ _ _ _ (home_parser_at 1 $"table" eq_refl) home_table_at
    bright_externals home_table_small A)). vm_compute. reflexivity.
Qed.
Lemma table_only j s : understood demo_ext home_loader (en_resources home_engine) bright only_light (Table home_table) j s -> j = $"lightOn".
Proof. intros (l & _ & ([E|[]] & _)). symmetry. exact E. Qed.

Lemma made_case :
  load_home = Ok home_engine /\ externals_ok demo_ext home_loader (en_resources home_engine) bright /\
  file_says home_loader home_orders home dir_e $"nlu_engine.json" d_engine home_model /\
  em_parsers home_model = [$"rules"] ++ $"table" :: [$"stats"] /\
  get_intents_whitelist id_order home_engine only_light None = Ok only_light /\
  none_understands demo_ext home_loader home_orders home dir_e (en_resources home_engine) bright only_light [$"rules"] /\
  rules_at home_loader home_orders home (pjoin dir_e $"table") (Table home_table) /\
  of_reasonable_size demo_ext (en_resources home_engine) bright (Table home_table) /\
  understood demo_ext home_loader (en_resources home_engine) bright only_light (Table home_table)
    $"lightOn" (pr_slots (home_answer 1 bright only_light)) /\
  (forall j s, understood demo_ext home_loader (en_resources home_engine) bright only_light (Table home_table) j s -> j = $"lightOn") /\
  exists res, parse_with_alternatives demo_ext id_order id_order home_engine bright only_light None 0 0 = Ok res /\
    map sl_raw_value (ps_slots res) = [$"Kitchen"].
Proof.
  split; [exact home_eq|]. split; [exact bright_externals|]. split; [exact home_model_at|]. split; [vm_compute; reflexivity|].
  split; [vm_compute; reflexivity|]. split; [exact rules_silent|]. split; [exact home_table_at|]. split; [exact home_table_small|].
  split; [exact table_understands|]. split; [exact table_only|].
  exists (get_ok no_result (parse_with_alternatives demo_ext id_order id_order home_engine bright only_light None 0 0)).
  split; [apply get_ok_eq; vm_compute; reflexivity|vm_compute; reflexivity].
Qed.

(** ** Injection into an engine of another version *)
Definition old_doc (c : str) : option json :=
  if str_eqb c $"E" then Some (obj
    [("dataset_metadata", obj [("language_code", txt "en");
        ("entities", obj [("room", obj [("automatically_extensible", JBool true)])]); ("slot_name_mappings", obj [])]);
     ("intent_parsers", arr []); ("model_version", txt "0.19.0"); ("training_package_version", txt "0.19.1");
     ("builtin_entity_parser", txt "builtin"); ("custom_entity_parser", txt "custom")])
  else inj_doc c.
Definition old_loader : Loader :=
  mkLoader old_doc (fun _ => None) demo_lang (fun _ => $"en") demo_compile
           (fun _ _ => Ok (fun s kinds alts => demo_builtin s kinds false alts))
           inj_gazetteer (fun _ _ => Err EOther).
Lemma old_version_injected :
  from_path demo_ext demo_shape no_ngrams demo_math old_loader orders0 units0 inj_tree dir_e = Err (EWrongModelVersion $"0.19.0" $"0.20.0") /\
  inject demo_ext old_loader orders0 units0 demo_gaz id_order id_order id_order (request dir_e [($"room", $"cellar")] false None) inj_tree =
    inject demo_ext inj_loader orders0 units0 demo_gaz id_order id_order id_order (request dir_e [($"room", $"cellar")] false None) inj_tree /\
  snd (inject demo_ext old_loader orders0 units0 demo_gaz id_order id_order id_order (request dir_e [($"room", $"cellar")] false None) inj_tree) = Ok tt.
Proof. split; [vm_compute; reflexivity|]. split; vm_compute; reflexivity. Qed.
