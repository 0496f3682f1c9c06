(** Examples for C84 and C85. Not part of the model of the repository. *)
From Coq Require Import String List NArith ZArith Bool Arith Lia.
From Verif Require Import Base Sorting F32 M_Types M_Utils M_Engine M_Det M_Lookup M_Feat M_Prob M_Features M_Crf M_Filler M_Cache M_Res M_Fs M_Json M_Load
  S_Base S_Utils S_Engine S_Det S_Rank S_Rules S_Load S_Match S_Answer S_Made S_Seeds S_Narrow
  P_Base P_Engine P_Load P_Match P_MatchDet P_Custom P_Made P_Case P_Narrow Demo P_Demo Demo_Rules Demo_Prob Demo_Crf Demo_Load Demo_Match Demo_Home Demo_Safe Demo_Made Demo_Seeds.
Import ListNotations.
Local Open Scope string_scope.
Local Open Scope list_scope.
Local Open Scope nat_scope.

(** ** A text that the table of the home engine was taught in one way *)
Definition bright_slots : list InternalSlot := pr_slots (home_answer 1 bright only_light).
Definition no_lp : LookupParser := mkLP EN [] [] [] [] [] [] demo_res.
Definition home_lp : LookupParser := get_ok no_lp (lookup_new demo_lang id_order home_table (en_resources home_engine)).
Lemma home_lp_new : lookup_new demo_lang id_order home_table (en_resources home_engine) = Ok home_lp.
Proof. apply get_ok_eq. vm_compute. reflexivity. Qed.
Lemma home_lp_keys : NoDup (map fst (lm_stop_whitelist home_table)).
Proof. vm_compute. constructor. Qed.

Lemma bright_table wl i s : understood demo_ext home_loader (en_resources home_engine) bright wl (Table home_table) i s ->
  i = $"lightOn" /\ s = bright_slots.
Proof.
  intros (l & El & _ & g & j & Ig & Ij & _ & found & es & t & Gr & Sub & Fo & Tb).
  assert (Ln : l = lp_lang home_lp) by (vm_compute in El; injection El as <-; vm_compute; reflexivity). subst l.
  apply (form_eq demo_ext demo_lang id_order home_table _ _ home_lp_new home_lp_keys) in Fo.
  apply (group_entities_eq demo_ext demo_lang id_order home_table _ _ home_lp_new) in Gr.
  assert (Cd : lookup_candidate demo_ext home_lp bright None (t, es) = Ok (Some (mkIPR (mkIR (Some i) f1) s))).
  { apply (table_gives_eq demo_ext demo_lang id_order home_table _ _ home_lp_new). exists i, s. split; [reflexivity|]. split; [exact Logic.I|exact Tb]. }
  apply (f_equal (fun o => match o with Ok (Some r) => Some (ir_name (pr_intent r), pr_slots r) | _ => None end)) in Cd.
  cbn [pr_intent ir_name pr_slots] in Cd. clear El Tb. subst t.
  assert (Bs : bright_slots = [mkIS $"Kitchen" (22, 29) $"room" $"room"]) by (vm_compute; reflexivity). rewrite Bs.
  change (lm_scopes home_table) with [mkGS [$"lightOn"] (mkES [] [$"room"]); mkGS [$"setTemp"] (mkES [$"snips/number"] [$"room"])] in Ig.
  assert (Fd : found = [mkME (22, 29) $"room"]).
  { destruct Ig as [<-|[<-|[]]]; vm_compute in Gr; injection Gr as <-; vm_compute; reflexivity. }
  clear Gr. subst found.
  assert (Jj : j = $"lightOn" \/ j = $"setTemp") by (destruct Ig as [<-|[<-|[]]]; destruct Ij as [<-|[]]; auto). clear Ig Ij g.
  inversion Sub as [|e l m S1|e l m S1]; subst; inversion S1; subst; clear Sub S1;
    destruct Jj as [->| ->]; vm_compute in Cd; try discriminate Cd; injection Cd as <- <-; split; reflexivity.
Qed.

Lemma bright_no_rule wl i s : ~ understood demo_ext home_loader (en_resources home_engine) bright wl (Patterns home_rules) i s.
Proof.
  intros U.
  assert (Hi : i = $"lightOn" \/ i = $"setTemp").
  { destruct U as (l & _ & _ & decls & I & _).
    change (dm_slots home_rules) with [($"lightOn", [($"room", $"room")]); ($"setTemp", [($"room", $"room"); ($"degrees", $"snips/number")])] in I.
    destruct I as [I|[I|[]]]; apply (f_equal fst) in I; cbn [fst] in I; auto. }
  assert (U' : understood demo_ext home_loader (en_resources home_engine) bright (Some [i]) (Patterns home_rules) i s).
  { destruct U as (l & El & _ & U). exists l. split; [exact El|]. split; [left; reflexivity|exact U]. }
  assert (O : forall j s, understood demo_ext home_loader (en_resources home_engine) bright (Some [i]) (Patterns home_rules) j s -> j = i).
  { intros j s' (l & _ & ([E|[]] & _)). symmetry. exact E. }
  assert (A : ip_parse (home_parser 0) bright (Some [i]) = Ok (home_answer 0 bright (Some [i])))
    by (apply get_ok_eq; destruct Hi as [->| ->]; vm_compute; reflexivity).
  pose proof (proj2 (proj2 (rules_answer _ _ _ _ _ _ _ _ _ _ _ _ _ _ _ (home_parser_at 0 $"rules" eq_refl) home_rules_at
    bright_externals bright_fits A)) i s U' O) as K.
  apply (f_equal ir_name) in K. destruct Hi as [->| ->]; vm_compute in K; discriminate K.
Qed.

Lemma bright_one_way wl : understood_one_way demo_ext home_loader home_orders home dir_e home_model (en_resources home_engine) bright wl.
Proof.
  intros name r i s j s' N R U U'. destruct (home_rules_are _ _ N R) as [->| ->].
  - destruct (bright_no_rule _ _ _ U).
  - apply bright_table in U as [-> ->]. apply bright_table in U' as [-> ->]. auto.
Qed.
Lemma bright_own wl : own_entities demo_ext home_loader home_orders home dir_e home_model (en_resources home_engine) bright wl.
Proof.
  intros name t i s N R U. destruct (home_rules_are _ _ N R) as [E|E]; [discriminate|]. rewrite E in *.
  apply bright_table in U as [-> ->]. exact table_understands.
Qed.
Lemma home_rules_first : rules_first home_loader home_orders home dir_e home_model.
Proof.
  intros names last E name I. change (em_parsers home_model) with ([$"rules"; $"table"] ++ [$"stats"]) in E.
  apply app_inj_tail in E as [<- _]. destruct I as [<-|[<-|[]]]; [exists (Patterns home_rules); exact home_rules_at|exists (Table home_table); exact home_table_at].
Qed.

Definition bright_answer : ParseResult :=
  get_ok no_result (parse_with_alternatives demo_ext id_order id_order home_engine bright None None 0 0).
Definition bright_got : list Slot := get_ok [] (get_slots_with_alternatives demo_ext home_engine bright $"lightOn" 0).
Lemma narrow_case :
  load_home = Ok home_engine /\ externals_ok demo_ext home_loader (en_resources home_engine) bright /\
  file_says home_loader home_orders home dir_e $"nlu_engine.json" d_engine home_model /\
  sizes_ok demo_ext home_loader home_orders home dir_e home_model (en_resources home_engine) bright /\
  get_intents_whitelist id_order home_engine None None = Ok None /\
  get_intents_whitelist id_order home_engine None (Some [$"setTemp"]) = Ok only_light /\
  narrower only_light None /\ rules_first home_loader home_orders home dir_e home_model /\
  understood_one_way demo_ext home_loader home_orders home dir_e home_model (en_resources home_engine) bright None /\
  own_entities demo_ext home_loader home_orders home dir_e home_model (en_resources home_engine) bright None /\
  parse_with_alternatives demo_ext id_order id_order home_engine bright None None 0 0 = Ok bright_answer /\
  ir_name (ps_intent bright_answer) = Some $"lightOn" /\ map sl_raw_value (ps_slots bright_answer) = [$"Kitchen"] /\
  get_slots_with_alternatives demo_ext home_engine bright $"lightOn" 0 = Ok bright_got.
Proof.
  split; [exact home_eq|]. split; [exact bright_externals|]. split; [exact home_model_at|]. split; [exact bright_sizes|].
  split; [reflexivity|]. split; [vm_compute; reflexivity|]. split; [intros i _; exact Logic.I|]. split; [exact home_rules_first|].
  split; [exact (bright_one_way None)|]. split; [exact (bright_own None)|].
  split; [apply get_ok_eq; vm_compute; reflexivity|]. split; [vm_compute; reflexivity|]. split; [vm_compute; reflexivity|].
  apply get_ok_eq; vm_compute; reflexivity.
Qed.

(** ** An engine whose patterns know two intents for one text, and a text without slots *)
Definition plain_pattern : demo_pattern := [(None, $"turn"); (None, $"on"); (None, $"living"); (None, $"room")].
Definition narrow_compile (p : str) : outcome Regex :=
  if str_eqb p $"plain" then Ok (demo_regex plain_pattern)
  else demo_compile p.
Definition narrow_changes : list (str * json) :=
  [($"E", obj
      [("dataset_metadata", obj
          [("language_code", txt "en");
           ("entities", obj [("room", obj [("automatically_extensible", JBool true)])]);
           ("slot_name_mappings", obj [("lightOn", obj [("room", txt "room")]);
                                       ("setTemp", obj [("room", txt "room"); ("degrees", txt "snips/number")]);
                                       ("dimLight", obj [("room", txt "room"); ("degrees", txt "snips/number")]);
                                       ("setOven", obj [("room", txt "room"); ("degrees", txt "snips/number")])])]);
       ("intent_parsers", arr ["rules"; "stats"]); ("model_version", txt "0.20.0");
       ("training_package_version", txt "0.20.1");
       ("builtin_entity_parser", txt "builtin"); ("custom_entity_parser", txt "custom")]);
   ($"PM", obj [("slot_fillers", JArr [obj [("intent", txt "lightOn"); ("slot_filler_name", txt "filler_0")];
                                       obj [("intent", txt "setTemp"); ("slot_filler_name", txt "filler_0")]])]);
   ($"DM", obj [("language_code", txt "en");
                ("patterns", obj [("lightOn", arr ["plain"]); ("dimLight", arr ["temp"]); ("setOven", arr ["any"])]);
                ("group_names_to_slot_names", obj [("group0", txt "room"); ("group1", txt "degrees")]);
                ("slot_names_to_entities", obj [("lightOn", obj [("room", txt "room")]);
                   ("dimLight", obj [("room", txt "room"); ("degrees", txt "snips/number")]);
                   ("setOven", obj [("room", txt "room"); ("degrees", txt "snips/number")])]);
                ("config", obj [("ignore_stop_words", JBool true)])])].
Definition narrow_documents : list (str * json) :=
  narrow_changes ++ filter (fun d => negb (smem (fst d) (map fst narrow_changes))) home_documents.
Definition narrow_loader : Loader :=
  mkLoader (fun c => sget c narrow_documents) home_f32 demo_lang (fun _ => $"en") narrow_compile
           (fun _ _ => Ok (fun s kinds alts => demo_builtin s kinds false alts))
           (fun _ _ => Ok home_gaz)
           (fun f p => match f (resolve p) with Some (File _) => Ok demo_tagger | _ => Err EIo end).
Definition load_narrow : outcome Engine :=
  from_path demo_ext demo_shape no_ngrams demo_math narrow_loader home_orders home_orders home dir_e.
Definition narrow_engine : Engine := get_ok no_engine load_narrow.
Lemma narrow_eq : load_narrow = Ok narrow_engine.
Proof. apply get_ok_eq. vm_compute. reflexivity. Qed.

Definition narrow_doc (c : string) : json := match sget $c narrow_documents with Some j => j | None => JNull end.
Definition narrow_model : EngineModel := get_ok no_em (d_engine (fun _ => id_order) (narrow_doc "E")).
Definition narrow_rules : DetModel := get_ok no_dm (d_deterministic (fun _ => id_order) (narrow_doc "DM")).
Lemma narrow_holds {A} p name (d : orders -> decoder A) c j a :
  home (resolve (pjoin p name)) = Some (File c) -> sget c narrow_documents = Some j -> d (fun _ => id_order) j = Ok a ->
  file_says narrow_loader home_orders home p name d a.
Proof. intros F J H. exists j. split; [exists c; split; assumption|exact H]. Qed.
Ltac narrow_holds c := apply (narrow_holds _ _ _ $c (narrow_doc c)); [vm_compute; reflexivity|vm_compute; reflexivity|].
Lemma narrow_model_at : file_says narrow_loader home_orders home dir_e $"nlu_engine.json" d_engine narrow_model.
Proof. narrow_holds "E". apply get_ok_eq. vm_compute. reflexivity. Qed.
Lemma narrow_rules_at : rules_at narrow_loader home_orders home (pjoin dir_e $"rules") (Patterns narrow_rules).
Proof.
  split.
  - narrow_holds "D". reflexivity.
  - narrow_holds "DM". apply get_ok_eq. vm_compute. reflexivity.
Qed.
Lemma narrow_stats_at : unit_at narrow_loader home_orders home (pjoin dir_e $"stats") UProbabilistic.
Proof. narrow_holds "P". reflexivity. Qed.
Lemma narrow_rules_are name r : In name (em_parsers narrow_model) -> rules_at narrow_loader home_orders home (pjoin dir_e name) r ->
  r = Patterns narrow_rules.
Proof.
  intros N R. pose proof narrow_rules_at as [U1 F1]. pose proof narrow_stats_at as U3.
  assert (N' : name = $"rules" \/ name = $"stats") by (revert N; vm_compute; intuition). clear N.
  destruct N' as [->| ->]; destruct r as [m|m]; destruct R as [U F].
  - f_equal. exact (says_fun _ _ _ _ _ _ _ _ F F1).
  - discriminate (unit_fun _ _ _ _ _ _ U U1).
  - discriminate (unit_fun _ _ _ _ _ _ U U3).
  - discriminate (unit_fun _ _ _ _ _ _ U U3).
Qed.

Definition heat : str := $"set bedroom to 21".
Definition living : str := $"turn on living room".
Definition res_n : Resources := en_resources narrow_engine.

Lemma regex_groups w s caps : length w <= 5 -> demo_regex w s = Some caps -> (Z.of_nat (length caps) < 2 ^ 64)%Z.
Proof.
  intros B Hr. unfold demo_regex in Hr. destruct (list_eqb _ _ _); [|discriminate]. injection Hr as <-.
  cbn [length]. rewrite map_length, combine_length. lia.
Qed.
Lemma narrow_groups : groups_fit narrow_compile.
Proof.
  intros p r s caps Hc Hr. unfold narrow_compile in Hc. destruct (str_eqb p _); [|exact (demo_groups_fit p r s caps Hc Hr)].
  apply same_ok in Hc. subst r. refine (regex_groups plain_pattern s caps _ Hr). vm_compute. lia.
Qed.
Lemma narrow_custom : rs_custom res_n = custom_entities demo_ext EN home_gaz.
Proof. reflexivity. Qed.
Lemma narrow_builtin s : builtin_parser_ok (rs_builtin res_n) s.
Proof.
  intros f u n es H e He. change (rs_builtin res_n) with (fun s kinds (_ : bool) alts => demo_builtin (x_lower demo_ext s) kinds false alts) in H.
  cbv beta in H. pose proof (demo_builtin_ok _ _ _ _ _ H _ He) as W. cbn [x_lower demo_ext] in W. rewrite map_length in W. exact W.
Qed.
Lemma heat_externals : externals_ok demo_ext narrow_loader res_n heat.
Proof.
  split; [exact demo_tokenizer_ok|]. split; [apply narrow_builtin|]. split; [|exact narrow_groups].
  intros f n out H e He. rewrite narrow_custom in H. unfold custom_entities in H.
  apply custom_moved in H; [|exact (demo_tokenizer_ok EN _)|vm_compute; reflexivity].
  destruct H as (es & G & F). destruct (Forall2_In_r _ _ _ _ F He) as (g & Ig & (_ & _ & _ & _ & M)).
  apply (scoped_more _ _ _ _ _ G) in Ig.
  assert (K : Forall (fun g => ce_range g = (4, 11)) (get_ok [] (home_gaz (join [space] (map tk_value (x_tokenize demo_ext EN (x_lower demo_ext heat)))) None n)))
    by (vm_compute; repeat constructor).
  rewrite Forall_forall in K. specialize (K g Ig). rewrite K in M.
  specialize (M 1 0 (mkTok $"bedroom" (4, 11) (4, 11)) 1 6 (mkTok $"bedroom" (4, 11) (4, 11))).
  rewrite M; [vm_compute; lia| | |cbn [rend snd]; lia]; (split; [vm_compute; reflexivity|split; [vm_compute; lia|vm_compute; reflexivity]]).
Qed.
Lemma living_externals : externals_ok demo_ext narrow_loader res_n living.
Proof.
  split; [exact demo_tokenizer_ok|]. split; [apply narrow_builtin|]. split; [|exact narrow_groups].
  intros f n out H e He. rewrite narrow_custom in H. unfold custom_entities in H.
  apply custom_moved in H; [|exact (demo_tokenizer_ok EN _)|vm_compute; reflexivity].
  destruct H as (es & G & F). destruct (Forall2_In_r _ _ _ _ F He) as (g & Ig & (_ & _ & _ & _ & M)).
  apply (scoped_more _ _ _ _ _ G) in Ig.
  assert (K : Forall (fun g => ce_range g = (8, 19)) (get_ok [] (home_gaz (join [space] (map tk_value (x_tokenize demo_ext EN (x_lower demo_ext living)))) None n)))
    by (vm_compute; repeat constructor).
  rewrite Forall_forall in K. specialize (K g Ig). rewrite K in M.
  specialize (M 2 0 (mkTok $"living" (8, 14) (8, 14)) 3 3 (mkTok $"room" (15, 19) (15, 19))).
  rewrite M; [vm_compute; lia| | |cbn [rend snd]; lia]; (split; [vm_compute; reflexivity|split; [vm_compute; lia|vm_compute; reflexivity]]).
Qed.

Lemma narrow_fits s : s = heat \/ s = living -> texts_fit demo_ext narrow_rules res_n s.
Proof.
  intros Hs. split; [destruct Hs as [->| ->]; vm_compute; reflexivity|].
  intros i decls kept Hd (scope & es & Sc & (bes & ces & Eb & Ec & ->) & ->).
  apply scope_eq in Sc. subst scope.
  assert (I : In (i, decls) [($"lightOn", [($"room", $"room")]); ($"dimLight", [($"room", $"room"); ($"degrees", $"snips/number")]);
                             ($"setOven", [($"room", $"room"); ($"degrees", $"snips/number")])])
    by (revert Hd; vm_compute; exact (fun h => h)).
  destruct Hs as [->| ->]; (destruct I as [I|[I|[I|[]]]]; (assert (D := f_equal snd I); cbn [snd] in D; subst decls; clear I Hd;
    vm_compute in Eb; vm_compute in Ec; injection Eb as <-; injection Ec as <-; vm_compute; reflexivity)).
Qed.
Lemma narrow_sizes s : s = heat \/ s = living -> sizes_ok demo_ext narrow_loader home_orders home dir_e narrow_model res_n s.
Proof. intros Hs name r N R. rewrite (narrow_rules_are _ _ N R). exact (narrow_fits s Hs). Qed.
Lemma narrow_own s wl : own_entities demo_ext narrow_loader home_orders home dir_e narrow_model res_n s wl.
Proof. intros name t i sl N R. discriminate (narrow_rules_are _ _ N R). Qed.
Lemma narrow_rules_first : rules_first narrow_loader home_orders home dir_e narrow_model.
Proof.
  intros names last E name I. change (em_parsers narrow_model) with ([$"rules"] ++ [$"stats"]) in E.
  apply app_inj_tail in E as [<- _]. destruct I as [<-|[]]. exists (Patterns narrow_rules). exact narrow_rules_at.
Qed.

Definition narrow_answer (s : str) (w : option (list str)) : ParseResult :=
  get_ok no_result (parse_with_alternatives demo_ext id_order id_order narrow_engine s w None 0 0).
Definition two_intents : option (list str) := Some [$"setTemp"; $"dimLight"].

(** ** The text of two intents *)
Lemma narrow_matters : exists x shape ngrams mx L fo uo f p en m input wl wl' r r',
  from_path x shape ngrams mx L fo uo f p = Ok en /\ file_says L fo f p $"nlu_engine.json" d_engine m /\
  externals_ok x L (en_resources en) input /\ sizes_ok x L fo f p m (en_resources en) input /\
  own_entities x L fo f p m (en_resources en) input wl /\ narrower wl' wl /\
  get_intents_whitelist id_order en wl None = Ok wl /\ get_intents_whitelist id_order en wl' None = Ok wl' /\
  parse_with_alternatives x id_order id_order en input wl None 0 0 = Ok r /\ ir_name (ps_intent r) = Some $"setTemp" /\
  allowed wl' $"setTemp" /\
  parse_with_alternatives x id_order id_order en input wl' None 0 0 = Ok r' /\ ir_name (ps_intent r') = Some $"dimLight".
Proof.
  exists demo_ext, demo_shape, no_ngrams, demo_math, narrow_loader, home_orders, home_orders, home, dir_e, narrow_engine, narrow_model,
    heat, None, two_intents, (narrow_answer heat None), (narrow_answer heat two_intents).
  split; [exact narrow_eq|]. split; [exact narrow_model_at|]. split; [exact heat_externals|]. split; [exact (narrow_sizes _ (or_introl eq_refl))|].
  split; [apply narrow_own|]. split; [intros i _; exact Logic.I|]. split; [reflexivity|]. split; [vm_compute; reflexivity|].
  split; [apply get_ok_eq; vm_compute; reflexivity|]. split; [vm_compute; reflexivity|]. split; [left; reflexivity|].
  split; [apply get_ok_eq; vm_compute; reflexivity|]. vm_compute. reflexivity.
Qed.

(** ** The text without slots *)
Definition no_dp : DetParser := mkDP EN [] [] [] [] [] [] demo_res.
Definition narrow_dp : DetParser := get_ok no_dp (det_new demo_ext demo_lang narrow_compile id_order id_order id_order narrow_rules res_n).
Lemma living_setting : det_setting demo_ext demo_lang narrow_compile id_order id_order id_order narrow_rules res_n narrow_dp living.
Proof.
  split; [apply get_ok_eq; vm_compute; reflexivity|].
  split; [exact (det_once (fun _ => id_order) (narrow_doc "DM") narrow_rules ltac:(apply get_ok_eq; vm_compute; reflexivity))|].
  destruct living_externals as (T & B & C & G). repeat (split; [assumption|]). split; [exact (narrow_fits _ (or_intror eq_refl))|exact G].
Qed.
Lemma living_one i s : pattern_recognised demo_ext narrow_compile (dp_lang narrow_dp) narrow_rules res_n living None i s ->
  i = $"lightOn" /\ s = [].
Proof.
  intros (_ & U).
  assert (Hi : i = $"lightOn" \/ i = $"dimLight" \/ i = $"setOven").
  { destruct U as (decls & I & _).
    change (dm_slots narrow_rules) with [($"lightOn", [($"room", $"room")]); ($"dimLight", [($"room", $"room"); ($"degrees", $"snips/number")]);
                             ($"setOven", [($"room", $"room"); ($"degrees", $"snips/number")])] in I.
    destruct I as [I|[I|[I|[]]]]; apply (f_equal fst) in I; cbn [fst] in I; auto. }
  assert (U' : pattern_recognised demo_ext narrow_compile (dp_lang narrow_dp) narrow_rules res_n living (Some [i]) i s)
    by (split; [left; reflexivity|exact U]).
  assert (O : forall j s, pattern_recognised demo_ext narrow_compile (dp_lang narrow_dp) narrow_rules res_n living (Some [i]) j s -> j = i)
    by (intros j s' ([E|[]] & _); symmetry; exact E).
  assert (A : det_parse demo_ext id_order narrow_dp living (Some [i]) = Ok (get_ok no_ipr (det_parse demo_ext id_order narrow_dp living (Some [i]))))
    by (apply get_ok_eq; destruct Hi as [->| [->| ->]]; vm_compute; reflexivity).
  pose proof (patterns_certain _ _ _ _ _ _ _ _ _ _ _ _ _ _ _ living_setting A U' O) as K.
  apply (f_equal (fun r => (ir_name (pr_intent r), pr_slots r))) in K. cbn [pr_intent ir_name pr_slots] in K.
  destruct Hi as [->| [->| ->]]; vm_compute in K; try discriminate K. apply (f_equal snd) in K. cbn [snd] in K. auto.
Qed.
Lemma living_one_way : understood_one_way demo_ext narrow_loader home_orders home dir_e narrow_model res_n living None.
Proof.
  intros name r i s j s' N R U U'. rewrite (narrow_rules_are _ _ N R) in *. clear R.
  destruct U as (l & El & U), U' as (l' & El' & U').
  assert (Ln : forall k, ld_lang narrow_loader (dm_language narrow_rules) = Some k -> k = dp_lang narrow_dp)
    by (intros k Ek; vm_compute in Ek; injection Ek as <-; vm_compute; reflexivity).
  rewrite (Ln _ El) in U. rewrite (Ln _ El') in U'. apply living_one in U as [-> ->], U' as [-> ->]. auto.
Qed.

Definition living_got : list Slot := get_ok [] (get_slots_with_alternatives demo_ext narrow_engine living $"lightOn" 0).
Lemma silence_matters : exists x shape ngrams mx L fo uo f p en m input r i sl,
  from_path x shape ngrams mx L fo uo f p = Ok en /\ file_says L fo f p $"nlu_engine.json" d_engine m /\
  externals_ok x L (en_resources en) input /\ sizes_ok x L fo f p m (en_resources en) input /\
  rules_first L fo f p m /\ understood_one_way x L fo f p m (en_resources en) input None /\
  own_entities x L fo f p m (en_resources en) input None /\
  parse_with_alternatives x id_order id_order en input None None 0 0 = Ok r /\ ir_name (ps_intent r) = Some i /\
  ps_slots r = [] /\ get_slots_with_alternatives x en input i 0 = Ok sl /\ map sl_raw_value sl = [$"living room"].
Proof.
  exists demo_ext, demo_shape, no_ngrams, demo_math, narrow_loader, home_orders, home_orders, home, dir_e, narrow_engine, narrow_model,
    living, (narrow_answer living None), $"lightOn", living_got.
  split; [exact narrow_eq|]. split; [exact narrow_model_at|]. split; [exact living_externals|]. split; [exact (narrow_sizes _ (or_intror eq_refl))|].
  split; [exact narrow_rules_first|]. split; [exact living_one_way|]. split; [apply narrow_own|].
  split; [apply get_ok_eq; vm_compute; reflexivity|]. split; [vm_compute; reflexivity|]. split; [vm_compute; reflexivity|].
  split; [apply get_ok_eq; vm_compute; reflexivity|]. vm_compute. reflexivity.
Qed.

(** ** An intent that the patterns do not list *)
Definition only_temp : option (list str) := Some [$"setTemp"].
Lemma temp_one_way : understood_one_way demo_ext narrow_loader home_orders home dir_e narrow_model res_n living only_temp.
Proof.
  intros name r i s j s' N R U _. rewrite (narrow_rules_are _ _ N R) in U. exfalso. clear R.
  destruct U as (l & _ & [<-|[]] & decls & I & _).
  change (dm_slots narrow_rules) with [($"lightOn", [($"room", $"room")]); ($"dimLight", [($"room", $"room"); ($"degrees", $"snips/number")]);
                             ($"setOven", [($"room", $"room"); ($"degrees", $"snips/number")])] in I.
  destruct I as [I|[I|[I|[]]]]; apply (f_equal fst) in I; discriminate I.
Qed.
Lemma unlisted_matters : exists x shape ngrams mx L fo uo f p en m input w r i,
  from_path x shape ngrams mx L fo uo f p = Ok en /\ file_says L fo f p $"nlu_engine.json" d_engine m /\
  externals_ok x L (en_resources en) input /\ sizes_ok x L fo f p m (en_resources en) input /\
  rules_first L fo f p m /\ understood_one_way x L fo f p m (en_resources en) input w /\
  own_entities x L fo f p m (en_resources en) input w /\
  parse_with_alternatives x id_order id_order en input w None 0 0 = Ok r /\ ir_name (ps_intent r) = Some i /\
  map sl_raw_value (ps_slots r) = [$"living room"] /\ get_slots_with_alternatives x en input i 0 = Err EUnknownIntent.
Proof.
  exists demo_ext, demo_shape, no_ngrams, demo_math, narrow_loader, home_orders, home_orders, home, dir_e, narrow_engine, narrow_model,
    living, only_temp, (narrow_answer living only_temp), $"setTemp".
  split; [exact narrow_eq|]. split; [exact narrow_model_at|]. split; [exact living_externals|]. split; [exact (narrow_sizes _ (or_intror eq_refl))|].
  split; [exact narrow_rules_first|]. split; [exact temp_one_way|]. split; [apply narrow_own|].
  split; [apply get_ok_eq; vm_compute; reflexivity|]. split; [vm_compute; reflexivity|]. split; [vm_compute; reflexivity|].
  vm_compute. reflexivity.
Qed.
Lemma bright_listed : all_list_intent home_loader home_orders home dir_e home_model $"lightOn".
Proof. intros name r N R. destruct (home_rules_are _ _ N R) as [->| ->]; vm_compute; auto. Qed.
