(** The home engine loaded by two processes, for the examples of C82. Not part of the model of
    the repository. *)
From Coq Require Import String List NArith ZArith Bool Arith Lia Permutation.
From Verif Require Import Base Sorting F32 M_Types M_Utils M_Engine M_Det M_Lookup M_Feat M_Prob M_Features M_Crf M_Filler M_Cache M_Res M_Fs M_Json M_Load
  S_Base S_Utils S_Engine S_Det S_Rank S_Rules S_Load S_Match S_Answer S_Made S_Seeds
  P_Base P_Engine P_Made Demo P_Demo Demo_Rules Demo_Prob Demo_Crf Demo_Load Demo_Home Demo_Made.
Import ListNotations.
Local Open Scope string_scope.
Local Open Scope list_scope.
Local Open Scope nat_scope.

Lemma smem_perm k l l' : Permutation l l' -> smem k l = smem k l'.
Proof.
  intros P. destruct (smem k l) eqn:E, (smem k l') eqn:E'; auto.
  - apply smem_spec in E. apply (Permutation_in _ P) in E. apply smem_spec in E. congruence.
  - apply smem_spec in E'. apply (Permutation_in _ (Permutation_sym P)) in E'. apply smem_spec in E'. congruence.
Qed.
Lemma demo_builtin_set s k k' c n : Permutation k k' -> demo_builtin s (Some k) c n = demo_builtin s (Some k') c n.
Proof. intros P. unfold demo_builtin. rewrite (smem_perm _ _ _ P). reflexivity. Qed.
Lemma home_gaz_set s k k' n : Permutation k k' -> home_gaz s (Some k) n = home_gaz s (Some k') n.
Proof.
  intros P. unfold home_gaz. f_equal. f_equal.
  - apply flat_map_ext. intros t. apply flat_map_ext. intros v. rewrite (smem_perm _ _ _ P). reflexivity.
  - apply flat_map_ext. intros t. rewrite (smem_perm _ _ _ P). reflexivity.
Qed.
Lemma home_sets : filters_are_sets home_loader.
Proof.
  split; intros f p g E s k k' n P; injection E as <-; [apply demo_builtin_set|apply home_gaz_set]; exact P.
Qed.

Lemma home_pairs : pairs_once home_loader home.
Proof.
  intros p j o m (c & _ & J) D. apply home_doc in J. cbn [home_documents In] in J. doc_cases J D j.
  assert (E : exists l : list (nat * (str * str)), cm_pairs m = reorder (o $"word_pairs") l /\ NoDup (map snd l)).
  { unfold d_cooccurrence in D. bind_inv D. vm_compute in E. injection E as <-. bind_inv D. bind_inv D. bind_inv D. bind_inv D.
    destruct a2 as [[[? ?] ?] ?]. injection D as <-. cbn [required] in E1. unfold d_map in E1. bind_inv E1. vm_compute in E3. injection E3 as <-.
    injection E1 as <-. eexists. split; [reflexivity|]. vm_compute. repeat constructor; intros []. }
  destruct E as (l & E & N). rewrite E. apply (Permutation_NoDup (Permutation_map snd (reorder_perm _ l)) N).
Qed.

Definition other_orders : path -> str -> HashOrder := fun _ _ => rev_order.
Definition other_units : path -> nat -> HashOrder := fun _ _ => rev_order.
Definition load_again : outcome Engine :=
  from_path demo_ext demo_shape no_ngrams demo_math home_loader other_orders other_units home dir_e.
Definition again : Engine := get_ok no_engine load_again.
Lemma again_eq : load_again = Ok again.
Proof. apply get_ok_eq. vm_compute. reflexivity. Qed.

Lemma home_names name : In name (em_parsers home_model) -> name = $"rules" \/ name = $"table" \/ name = $"stats".
Proof. vm_compute. intuition. Qed.

Lemma home_stats_at : unit_at home_loader home_orders home (pjoin dir_e $"stats") UProbabilistic.
Proof. home_holds "P". reflexivity. Qed.

(** The rule based parsers of the home engine. *)
Lemma home_rules_are name r : In name (em_parsers home_model) -> rules_at home_loader home_orders home (pjoin dir_e name) r ->
  r = Patterns home_rules \/ r = Table home_table.
Proof.
  intros N R. pose proof home_rules_at as [U1 F1]. pose proof home_table_at as [U2 F2]. pose proof home_stats_at as U3.
  destruct (home_names _ N) as [->| [->| ->]]; destruct r as [m|m]; destruct R as [U F].
  - left. f_equal. exact (says_fun _ _ _ _ _ _ _ _ F F1).
  - discriminate (unit_fun _ _ _ _ _ _ U U1).
  - discriminate (unit_fun _ _ _ _ _ _ U U2).
  - right. f_equal. exact (says_fun _ _ _ _ _ _ _ _ F F2).
  - discriminate (unit_fun _ _ _ _ _ _ U U3).
  - discriminate (unit_fun _ _ _ _ _ _ U U3).
Qed.

Lemma bright_sizes : sizes_ok demo_ext home_loader home_orders home dir_e home_model (en_resources home_engine) bright.
Proof.
  intros name r N R. destruct (home_rules_are _ _ N R) as [->| ->]; [exact bright_fits|exact home_table_small].
Qed.

Lemma two_names (P : str -> Prop) a b : (forall i, P i -> i = a \/ i = b) -> at_most_two P.
Proof.
  intros H i j k Pi Pj Pk. destruct (H i Pi), (H j Pj), (H k Pk); subst; auto.
Qed.
(** There are two intents only. *)
Lemma home_hardly wl : hardly_ambiguous demo_ext home_loader home_orders home dir_e home_model (en_resources home_engine) bright wl.
Proof.
  intros name r N R. apply (two_names _ $"lightOn" $"setTemp"). intros i (slots & U).
  destruct (home_rules_are _ _ N R) as [->| ->]; destruct U as (l & _ & U).
  - destruct U as (_ & decls & I & _).
    change (dm_slots home_rules) with [($"lightOn", [($"room", $"room")]); ($"setTemp", [($"room", $"room"); ($"degrees", $"snips/number")])] in I.
    destruct I as [I|[I|[]]]; apply (f_equal fst) in I; cbn [fst] in I; auto.
  - destruct U as (_ & g & j & _ & _ & _ & found & es & t & _ & _ & _ & id & ids & _ & A & _).
    unfold at_id in A. destruct A as [_ A].
    change (lm_intents_names home_table) with [$"lightOn"; $"setTemp"] in A. apply nth_error_In in A.
    destruct A as [A|[A|[]]]; auto.
Qed.

(** What a user sees of an answer. *)
Lemma seeds_case :
  load_home = Ok home_engine /\ load_again = Ok again /\ pairs_once home_loader home /\ filters_are_sets home_loader /\
  file_says home_loader home_orders home dir_e $"nlu_engine.json" d_engine home_model /\
  externals_ok demo_ext home_loader (en_resources home_engine) bright /\
  sizes_ok demo_ext home_loader home_orders home dir_e home_model (en_resources home_engine) bright /\
  (forall wl, hardly_ambiguous demo_ext home_loader home_orders home dir_e home_model (en_resources home_engine) bright wl).
Proof.
  split; [exact home_eq|]. split; [exact again_eq|]. split; [exact home_pairs|]. split; [exact home_sets|].
  split; [exact home_model_at|]. split; [exact bright_externals|]. split; [exact bright_sizes|]. exact home_hardly.
Qed.

Definition answer_of (en : Engine) (s : string) : ParseResult :=
  get_ok no_result (parse_with_alternatives demo_ext id_order id_order en $s None None 0 0).
Definition slots_of (en : Engine) (s i : string) : list (str * range) :=
  map (fun sl => (sl_raw_value sl, sl_range sl)) (get_ok [] (get_slots_with_alternatives demo_ext en $s $i 0)).
Definition intents_of (en : Engine) (s : string) : list (option str) :=
  map ir_name (get_ok [] (get_intents rev_order en $s)).
Lemma seeds_answers :
  summary (answer_of home_engine "please brighten  the  Kitchen") = (Some $"lightOn", [($"Kitchen", (22, 29))]) /\
  summary (answer_of again "please brighten  the  Kitchen") = (Some $"lightOn", [($"Kitchen", (22, 29))]) /\
  slots_of home_engine "please brighten  the  Kitchen" "lightOn" = [($"Kitchen", (22, 29))] /\
  slots_of again "please brighten  the  Kitchen" "lightOn" = [($"Kitchen", (22, 29))] /\
  intents_of again "please brighten  the  Kitchen" = [Some $"lightOn"; Some $"setTemp"; None].
Proof. repeat split; vm_compute; reflexivity. Qed.

(** ** Three intents that match the same text, with 6, 7 and 55 slots: 1/7 is exactly one half
    of 1/7 + 1/8 + 1/56. *)
Definition two_digits (k : nat) : str := [N.of_nat (48 + k / 10); N.of_nat (48 + k mod 10)].
Definition group_name (k : nat) : str := $"g" ++ two_digits k.
Definition slot_name (k : nat) : str := $"s" ++ two_digits k.
Definition words_pattern (n : nat) : demo_pattern :=
  map (fun k => (if k <? n then Some (group_name k) else None, $"a")) (seq 0 55).
Definition tie_compile (p : str) : outcome Regex :=
  if str_eqb p $"six" then Ok (demo_regex (words_pattern 6))
  else if str_eqb p $"seven" then Ok (demo_regex (words_pattern 7))
  else if str_eqb p $"many" then Ok (demo_regex (words_pattern 55))
  else Err EOther.
Definition all_slots : json := JObj (map (fun k => (slot_name k, txt "word")) (seq 0 55)).
Definition tie_documents : list (str * json) :=
  [($"E", obj
      [("dataset_metadata", obj
          [("language_code", txt "en");
           ("entities", obj [("word", obj [("automatically_extensible", JBool true)])]);
           ("slot_name_mappings", obj [("six", all_slots); ("seven", all_slots); ("many", all_slots)])]);
       ("intent_parsers", arr ["rules"]); ("model_version", txt "0.20.0"); ("training_package_version", txt "0.20.1");
       ("builtin_entity_parser", txt "builtin"); ("custom_entity_parser", txt "custom")]);
   ($"R", obj [("language", txt "en"); ("gazetteers", JNull); ("word_clusters", JNull); ("stems", JNull);
               ("stop_words", txt "stop_words")]);
   ($"C", obj [("language", txt "en"); ("parser_directory", txt "parser"); ("parser_usage", JNum 1)]);
   ($"D", obj [("unit_name", txt "deterministic_intent_parser")]);
   ($"DM", obj [("language_code", txt "en");
                ("patterns", obj [("six", arr ["six"]); ("seven", arr ["seven"]); ("many", arr ["many"])]);
                ("group_names_to_slot_names", JObj (map (fun k => (group_name k, JStr (slot_name k))) (seq 0 55)));
                ("slot_names_to_entities", obj [("six", all_slots); ("seven", all_slots); ("many", all_slots)]);
                ("config", obj [("ignore_stop_words", JBool true)])])].
Definition tie_loader : Loader :=
  mkLoader (fun c => sget c tie_documents) home_f32 demo_lang (fun _ => $"en") tie_compile
           (fun _ _ => Ok (fun _ _ _ => Ok [])) (fun _ _ => Ok (fun _ _ _ => Ok [])) (fun _ _ => Err EIo).
Definition tie_tree : fs := files
  [(at_ "e/nlu_engine.json", $"E");
   (at_ "e/resources/en/metadata.json", $"R"); (at_ "e/resources/en/stop_words.txt", $"the");
   (at_ "e/custom/metadata.json", $"C");
   (at_ "e/rules/metadata.json", $"D"); (at_ "e/rules/intent_parser.json", $"DM")].
Definition tie_text : str := concat (repeat $"a " 55).

Definition tie_load (o : HashOrder) : outcome Engine :=
  from_path demo_ext demo_shape no_ngrams demo_math tie_loader (fun _ _ => id_order) (fun _ _ => o) tie_tree dir_e.
Definition tie_engine (o : HashOrder) : Engine := get_ok no_engine (tie_load o).
Definition tie_answer (o : HashOrder) : ParseResult :=
  get_ok no_result (parse_with_alternatives demo_ext id_order id_order (tie_engine o) tie_text None None 0 0).

Lemma tie_loads o : o = id_order \/ o = rev_order -> tie_load o = Ok (tie_engine o).
Proof. intros [->| ->]; apply get_ok_eq; vm_compute; reflexivity. Qed.
Lemma tie_answers o : o = id_order \/ o = rev_order ->
  parse_with_alternatives demo_ext id_order id_order (tie_engine o) tie_text None None 0 0 = Ok (tie_answer o).
Proof. intros [->| ->]; apply get_ok_eq; vm_compute; reflexivity. Qed.
Lemma tie_names : (ir_name (ps_intent (tie_answer id_order)), ir_name (ps_intent (tie_answer rev_order))) = (Some $"six", None).
Proof. vm_compute. reflexivity. Qed.

Lemma tie_sets : filters_are_sets tie_loader.
Proof. split; intros f p g E s k k' n P; injection E as <-; reflexivity. Qed.
Lemma tie_pairs f : pairs_once tie_loader f.
Proof.
  intros p j o m (c & _ & J) D. apply hget_In in J; [|exact str_eqb_spec]. cbn [tie_documents In] in J. doc_cases J D j.
Qed.

Definition tie_doc (c : string) : json := match sget $c tie_documents with Some j => j | None => JNull end.
Definition tie_model : EngineModel := get_ok no_em (d_engine (fun _ => id_order) (tie_doc "E")).
Definition tie_rules : DetModel := get_ok no_dm (d_deterministic (fun _ => id_order) (tie_doc "DM")).
Lemma tie_holds {A} p name (d : orders -> decoder A) c j a :
  tie_tree (resolve (pjoin p name)) = Some (File c) -> sget c tie_documents = Some j -> d (fun _ => id_order) j = Ok a ->
  file_says tie_loader home_orders tie_tree p name d a.
Proof. intros F J H. exists j. split; [exists c; split; assumption|exact H]. Qed.
Ltac tie_holds c := apply (tie_holds _ _ _ $c (tie_doc c)); [vm_compute; reflexivity|vm_compute; reflexivity|].
Lemma tie_model_at : file_says tie_loader home_orders tie_tree dir_e $"nlu_engine.json" d_engine tie_model.
Proof. tie_holds "E". apply get_ok_eq. vm_compute. reflexivity. Qed.
Lemma tie_rules_at : rules_at tie_loader home_orders tie_tree (pjoin dir_e $"rules") (Patterns tie_rules).
Proof.
  split.
  - tie_holds "D". reflexivity.
  - tie_holds "DM". apply get_ok_eq. vm_compute. reflexivity.
Qed.

Lemma tie_builtin o s k c n : o = id_order \/ o = rev_order -> rs_builtin (en_resources (tie_engine o)) s k c n = Ok [].
Proof. intros [->| ->]; reflexivity. Qed.
Lemma tie_custom o k n es : o = id_order \/ o = rev_order -> rs_custom (en_resources (tie_engine o)) tie_text k n = Ok es -> es = [].
Proof. intros [->| ->] H; vm_compute in H; injection H as <-; reflexivity. Qed.
Lemma tie_externals : externals_ok demo_ext tie_loader (en_resources (tie_engine id_order)) tie_text.
Proof.
  split; [exact demo_tokenizer_ok|]. split; [|split].
  - intros f u n es H e He. rewrite tie_builtin in H by auto. injection H as <-. contradiction He.
  - intros f n es H e He. apply tie_custom in H; auto. subst es. contradiction He.
  - intros p r s caps Hc Hr. change (ld_regex tie_loader) with tie_compile in Hc.
    assert (E : exists n, r = demo_regex (words_pattern n)).
    { unfold tie_compile in Hc. repeat (destruct (str_eqb p _); [injection Hc as <-; eexists; reflexivity|]). discriminate Hc. }
    destruct E as (n & ->). assert (Lw : length (words_pattern n) = 55) by (unfold words_pattern; rewrite map_length, seq_length; reflexivity).
    revert Lw Hr. generalize (words_pattern n). intros w Lw Hr. unfold demo_regex in Hr. destruct (list_eqb _ _ _); [|discriminate]. injection Hr as <-.
    cbn [length]. rewrite map_length, combine_length, Lw. lia.
Qed.

Lemma tie_rules_are name r : In name (em_parsers tie_model) -> rules_at tie_loader home_orders tie_tree (pjoin dir_e name) r ->
  name = $"rules" /\ r = Patterns tie_rules.
Proof.
  intros N R. pose proof tie_rules_at as [U1 F1].
  assert (E : name = $"rules") by (revert N; vm_compute; intros [E|[]]; auto). subst name. split; [reflexivity|].
  destruct r as [m|m]; destruct R as [U F].
  - f_equal. exact (says_fun _ _ _ _ _ _ _ _ F F1).
  - discriminate (unit_fun _ _ _ _ _ _ U U1).
Qed.
Lemma tie_sizes : sizes_ok demo_ext tie_loader home_orders tie_tree dir_e tie_model (en_resources (tie_engine id_order)) tie_text.
Proof.
  intros name r N R. destruct (tie_rules_are _ _ N R) as [_ ->]. split; [vm_compute; reflexivity|].
  intros i decls kept Hd (scope & es & Sc & (bes & ces & Eb & Ec & ->) & ->).
  rewrite tie_builtin in Eb by auto. injection Eb as <-. apply tie_custom in Ec; auto. subst ces. vm_compute. reflexivity.
Qed.

Lemma tie_order : exists x shape ngrams mx L fo uo uo' f p m en en' input r r',
  pairs_once L f /\ filters_are_sets L /\ from_path x shape ngrams mx L fo uo f p = Ok en /\
  from_path x shape ngrams mx L fo uo' f p = Ok en' /\ file_says L fo f p $"nlu_engine.json" d_engine m /\
  externals_ok x L (en_resources en) input /\ sizes_ok x L fo f p m (en_resources en) input /\
  (forall name rules i slots, In name (em_parsers m) -> rules_at L fo f (pjoin p name) rules ->
     understood x L (en_resources en) input None rules i slots -> In i [$"six"; $"seven"; $"many"]) /\
  parse_with_alternatives x id_order id_order en input None None 0 0 = Ok r /\
  parse_with_alternatives x id_order id_order en' input None None 0 0 = Ok r' /\
  ir_name (ps_intent r) = Some $"six" /\ ir_name (ps_intent r') = None.
Proof.
  exists demo_ext, demo_shape, no_ngrams, demo_math, tie_loader, (fun _ _ => id_order), (fun _ _ => id_order), (fun _ _ => rev_order),
    tie_tree, dir_e, tie_model, (tie_engine id_order), (tie_engine rev_order), tie_text, (tie_answer id_order), (tie_answer rev_order).
  split; [apply tie_pairs|]. split; [exact tie_sets|].
  split; [exact (tie_loads id_order (or_introl eq_refl))|]. split; [exact (tie_loads rev_order (or_intror eq_refl))|].
  split; [exact tie_model_at|]. split; [exact tie_externals|]. split; [exact tie_sizes|]. split.
  { intros name rules i slots N R U. destruct (tie_rules_are _ _ N R) as [_ ->].
    destruct U as (l & _ & _ & decls & I & _). apply (in_map fst) in I. cbn [fst] in I.
    assert (E : map fst (dm_slots tie_rules) = [$"six"; $"seven"; $"many"]) by (vm_compute; reflexivity). rewrite E in I. exact I. }
  split; [exact (tie_answers id_order (or_introl eq_refl))|]. split; [exact (tie_answers rev_order (or_intror eq_refl))|].
  pose proof tie_names as T. split; [exact (f_equal fst T)|exact (f_equal snd T)].
Qed.

(** ** A text that none of the three intents matches: all the confidences are equal *)
Definition b_text : str := $"b".
Definition b_engine : Engine := tie_engine id_order.
Lemma b_custom k n es : rs_custom (en_resources b_engine) b_text k n = Ok es -> es = [].
Proof. intros H. vm_compute in H. injection H as <-. reflexivity. Qed.
Lemma b_externals : externals_ok demo_ext tie_loader (en_resources b_engine) b_text.
Proof.
  destruct tie_externals as (T1 & T2 & _ & T4). split; [exact T1|]. split; [|split; [|exact T4]].
  - intros f u n es H e He. unfold b_engine in H. rewrite tie_builtin in H by auto. injection H as <-. contradiction He.
  - intros f n es H e He. apply b_custom in H; auto. subst es. contradiction He.
Qed.
Lemma b_fits : texts_fit demo_ext tie_rules (en_resources b_engine) b_text.
Proof.
  split; [vm_compute; reflexivity|]. intros i decls kept Hd (scope & es & Sc & (bes & ces & Eb & Ec & ->) & ->).
  unfold b_engine in Eb. rewrite tie_builtin in Eb by auto. injection Eb as <-. apply b_custom in Ec; auto. subst ces. vm_compute. reflexivity.
Qed.
Lemma b_sizes : sizes_ok demo_ext tie_loader home_orders tie_tree dir_e tie_model (en_resources b_engine) b_text.
Proof. intros name r N R. destruct (tie_rules_are _ _ N R) as [_ ->]. exact b_fits. Qed.
Definition b_parser : IntentParser := nth 0 (en_parsers b_engine) (home_parser 0).
Lemma b_parser_at : parser_at demo_ext demo_shape no_ngrams demo_math tie_loader home_orders (fun _ _ => id_order) tie_tree
  (en_resources b_engine) (pjoin dir_e $"rules") b_parser.
Proof.
  pose proof (tie_loads id_order (or_introl eq_refl)) as H. apply engine_iff in H. destruct H as (_ & _ & m & M & _ & F).
  rewrite <- (says_fun _ _ _ _ _ _ _ _ tie_model_at M) in F. unfold b_parser, b_engine. clear M.
  assert (E : em_parsers tie_model = [$"rules"]) by (vm_compute; reflexivity). rewrite E in F. clear E.
  inversion F as [|n ip l r P F' E1 E2]; subst. exact P.
Qed.
Definition b_answer (wl : option (list str)) : InternalParsingResult := get_ok no_ipr (ip_parse b_parser b_text wl).
Lemma b_nothing wl i s : ~ understood demo_ext tie_loader (en_resources b_engine) b_text wl (Patterns tie_rules) i s.
Proof.
  intros U.
  assert (Hi : In i [$"six"; $"seven"; $"many"]).
  { destruct U as (l & _ & _ & decls & I & _). apply (in_map fst) in I. cbn [fst] in I.
    assert (E : map fst (dm_slots tie_rules) = [$"six"; $"seven"; $"many"]) by (vm_compute; reflexivity). rewrite E in I. exact I. }
  assert (U' : understood demo_ext tie_loader (en_resources b_engine) b_text (Some [i]) (Patterns tie_rules) i s).
  { destruct U as (l & El & _ & U). exists l. split; [exact El|]. split; [left; reflexivity|exact U]. }
  assert (O : forall j s, understood demo_ext tie_loader (en_resources b_engine) b_text (Some [i]) (Patterns tie_rules) j s -> j = i).
  { intros j s' (l & _ & ([E|[]] & _)). symmetry. exact E. }
  clear U.
  assert (A : ip_parse b_parser b_text (Some [i]) = Ok (b_answer (Some [i])))
    by (apply get_ok_eq; destruct Hi as [<-|[<-|[<-|[]]]]; vm_compute; reflexivity).
  pose proof (proj2 (proj2 (rules_answer _ _ _ _ _ _ _ _ _ _ _ _ _ _ _ b_parser_at tie_rules_at b_externals b_fits A)) i s U' O) as K.
  apply (f_equal ir_name) in K. destruct Hi as [<-|[<-|[<-|[]]]]; vm_compute in K; discriminate K.
Qed.
Lemma b_hardly wl : hardly_ambiguous demo_ext tie_loader home_orders tie_tree dir_e tie_model (en_resources b_engine) b_text wl.
Proof.
  intros name r N R. destruct (tie_rules_are _ _ N R) as [_ ->]. intros i j k (s & U). destruct (b_nothing _ _ _ U).
Qed.
Definition b_result (o : HashOrder) : ParseResult :=
  get_ok no_result (parse_with_alternatives demo_ext id_order o b_engine b_text None None 1 0).
Lemma b_results o : o = id_order \/ o = rev_order -> parse_with_alternatives demo_ext id_order o b_engine b_text None None 1 0 = Ok (b_result o).
Proof. intros [->| ->]; apply get_ok_eq; vm_compute; reflexivity. Qed.
Lemma b_alternatives : map (fun o => map (fun a => ir_name (al_intent a)) (ps_alternatives (b_result o))) [id_order; rev_order] =
  [[Some $"seven"]; [Some $"many"]].
Proof. vm_compute. reflexivity. Qed.
Lemma tied_alternatives : exists x shape ngrams mx L fo uo f p m en input o o' r r',
  pairs_once L f /\ filters_are_sets L /\ from_path x shape ngrams mx L fo uo f p = Ok en /\
  file_says L fo f p $"nlu_engine.json" d_engine m /\
  externals_ok x L (en_resources en) input /\ sizes_ok x L fo f p m (en_resources en) input /\
  (forall wl, hardly_ambiguous x L fo f p m (en_resources en) input wl) /\
  parse_with_alternatives x id_order o en input None None 1 0 = Ok r /\
  parse_with_alternatives x id_order o' en input None None 1 0 = Ok r' /\
  map (fun a => ir_name (al_intent a)) (ps_alternatives r) = [Some $"seven"] /\
  map (fun a => ir_name (al_intent a)) (ps_alternatives r') = [Some $"many"].
Proof.
  exists demo_ext, demo_shape, no_ngrams, demo_math, tie_loader, (fun _ _ => id_order), (fun _ _ => id_order), tie_tree, dir_e, tie_model,
    b_engine, b_text, id_order, rev_order, (b_result id_order), (b_result rev_order).
  split; [apply tie_pairs|]. split; [exact tie_sets|]. split; [exact (tie_loads id_order (or_introl eq_refl))|].
  split; [exact tie_model_at|]. split; [exact b_externals|]. split; [exact b_sizes|]. split; [exact b_hardly|].
  split; [exact (b_results id_order (or_introl eq_refl))|]. split; [exact (b_results rev_order (or_intror eq_refl))|].
  pose proof b_alternatives as E. cbn [map] in E. split; [exact (f_equal (fun l => hd [] l) E)|exact (f_equal (fun l => hd [] (tl l)) E)].
Qed.

(** The home engine gives the three classes of a text different confidences. *)
Definition distinct (l : list IntentResult) : bool :=
  forallb (fun r => forallb (fun r' => orb (opt_str_eqb (ir_name r) (ir_name r')) (negb (feq (ir_score r) (ir_score r')))) l) l.
Lemma distinct_no_ties o en input : distinct (get_ok [] (get_intents o en input)) = true ->
  no_ties o en input.
Proof.
  intros D l r r' E I I' Q. pose proof (get_intents_NoDup _ _ _ _ E) as N. rewrite E in D. cbn [get_ok] in D. clear E. unfold distinct in D.
  rewrite forallb_forall in D. pose proof (D r I) as D'. rewrite forallb_forall in D'. specialize (D' r' I'). rewrite Q, orb_false_r in D'.
  apply opt_str_eqb_spec in D'. clear D Q.
  apply In_nth_error in I as [a Ha]. apply In_nth_error in I' as [b Hb].
  assert (a = b).
  { apply (NoDup_nth_error (map ir_name l)); [exact N| |].
    - rewrite map_length. apply nth_error_Some. congruence.
    - rewrite !nth_error_map, Ha, Hb. simpl. congruence. }
  subst. congruence.
Qed.
Lemma bright_no_ties : no_ties id_order home_engine bright.
Proof. apply distinct_no_ties. vm_compute. reflexivity. Qed.
Lemma bright_alternatives : map (fun en => map (fun a => ir_name (al_intent a)) (ps_alternatives (get_ok no_result
    (parse_with_alternatives demo_ext id_order rev_order en bright None None 2 0)))) [home_engine; again] =
  [[Some $"setTemp"; None]; [Some $"setTemp"; None]].
Proof. vm_compute. reflexivity. Qed.
