(** Demonstration material for C89. *)
From Coq Require Import String List NArith ZArith Bool Arith Lia.
From Verif Require Import Base F32 M_Types M_Utils M_Engine M_Det M_Lookup M_Feat M_Prob M_Features M_Filler M_Cache M_Res M_Fs M_Json M_Load
  S_Base S_Utils S_Engine S_Det S_Rank S_Rules S_Prob S_Load S_Match S_Made S_Seeds S_Narrow S_Intents S_Best
  P_Base P_Engine P_Made P_Narrow P_Best Demo Demo_Rules Demo_Prob Demo_Crf Demo_Load Demo_Home Demo_Made Demo_Seeds Demo_Narrow Demo_Intents.
Import ListNotations.
Local Open Scope string_scope.
Local Open Scope list_scope.
Local Open Scope nat_scope.

(** ** Documents whose classes are distinct *)
Fixpoint once_in (l : list (option str)) : bool :=
  match l with [] => true | i :: rest => negb (existsb (opt_str_eqb i) rest) && once_in rest end.
Lemma once_in_ok l : once_in l = true -> NoDup l.
Proof.
  induction l as [|i l IH]; [constructor|]. cbn [once_in]. intros H. apply andb_true_iff in H as [H1 H2]. constructor; [|exact (IH H2)].
  intros I. apply negb_true_iff in H1. assert (E : existsb (opt_str_eqb i) l = true); [|congruence].
  apply existsb_exists. exists i. split; [exact I|]. apply opt_str_eqb_spec. reflexivity.
Qed.
Definition once_b (L : Loader) (f : fs) (p : path) (m : EngineModel) : bool :=
  forallb (fun name => once_in (clm_intents (get_ok (mkClM None None None [])
      (read_json L f (pjoin (pjoin (pjoin p name) $"intent_classifier") $"intent_classifier.json") (d_classifier (ld_f32 L)))))) (em_parsers m).
Lemma once_ok L fo f p m : once_b L f p m = true -> classes_once L fo f p m.
Proof.
  intros H name cm I [_ S]. unfold once_b in H. rewrite forallb_forall in H. specialize (H name I). cbv beta in H.
  apply (says_iff L fo f _ _ (fun _ => d_classifier (ld_f32 L))) in S. rewrite S in H. exact (once_in_ok _ H).
Qed.
Lemma home_once : classes_once home_loader home_orders home dir_e home_model.
Proof. apply once_ok. vm_compute. reflexivity. Qed.

(** ** A text that a rule based parser knows for one intent only *)
Definition bright_all : ParseResult :=
  get_ok no_result (parse_with_alternatives demo_ext id_order id_order home_engine bright None None 3 0).
Lemma bright_all_ok : parse_with_alternatives demo_ext id_order id_order home_engine bright None None 3 0 = Ok bright_all.
Proof. apply get_ok_eq. vm_compute. reflexivity. Qed.
Lemma bright_all_certain : ps_intent bright_all = mkIR (Some $"lightOn") f1.
Proof.
  assert (E : ir_name (ps_intent bright_all) = Some $"lightOn") by (vm_compute; reflexivity).
  assert (V : ir_score (ps_intent bright_all) = f1).
  { apply Flocq.IEEE754.BinarySingleNaN.B2SF_inj. vm_compute. reflexivity. }
  destruct (ps_intent bright_all). cbn in E, V. subst. reflexivity.
Qed.
Lemma bright_sole e : In e (listed home_engine bright) -> ir_score e = f1 -> ir_name e = Some $"lightOn".
Proof.
  intros I V. apply (in_map (fun r => (ir_name r, feq (ir_score r) f1))) in I. rewrite V in I.
  assert (T : feq f1 f1 = true) by (vm_compute; reflexivity). rewrite T in I. clear T.
  assert (E : map (fun r => (ir_name r, feq (ir_score r) f1)) (listed home_engine bright) =
              [(Some $"lightOn", true); (Some $"setTemp", false); (None, false)]) by (vm_compute; reflexivity).
  rewrite E in I. clear E V. revert I. generalize (ir_name e). intros n I.
  destruct I as [I|[I|[I|[]]]]; [exact (eq_sym (f_equal fst I))|discriminate (f_equal snd I)|discriminate (f_equal snd I)].
Qed.
Lemma bright_others : map (fun a => ir_name (al_intent a)) (ps_alternatives bright_all) = [Some $"setTemp"; None].
Proof. vm_compute. reflexivity. Qed.

(** ** An engine whose only parser is a classifier *)
Definition stats_documents : list (str * json) :=
  map (fun d => if str_eqb (fst d) $"E" then
                  (fst d, match snd d with
                          | JObj l => JObj (map (fun e => if str_eqb (fst e) $"intent_parsers" then (fst e, arr ["stats"]) else e) l)
                          | j => j
                          end)
                else d) home_documents.
Definition stats_loader : Loader :=
  mkLoader (fun c => sget c stats_documents) home_f32 demo_lang (fun _ => $"en") demo_compile
           (fun _ _ => Ok (fun s kinds alts => demo_builtin s kinds false alts))
           (fun _ _ => Ok home_gaz)
           (fun f p => match f (resolve p) with Some (File _) => Ok demo_tagger | _ => Err EIo end).
Definition load_stats : outcome Engine :=
  from_path demo_ext demo_shape no_ngrams demo_math stats_loader home_orders home_orders home dir_e.
Definition stats_engine : Engine := get_ok no_engine load_stats.
Lemma stats_eq : load_stats = Ok stats_engine.
Proof. apply get_ok_eq. vm_compute. reflexivity. Qed.
Definition stats_doc (c : string) : json := match sget $c stats_documents with Some j => j | None => JNull end.
Definition stats_model : EngineModel := get_ok no_em (d_engine (fun _ => id_order) (stats_doc "E")).
Lemma stats_model_at : file_says stats_loader home_orders home dir_e $"nlu_engine.json" d_engine stats_model.
Proof.
  exists (stats_doc "E"). split; [exists $"E"; split; vm_compute; reflexivity|]. apply get_ok_eq. vm_compute. reflexivity.
Qed.
Lemma stats_at : unit_at stats_loader home_orders home (pjoin dir_e $"stats") UProbabilistic.
Proof. exists (stats_doc "P"). split; [exists $"P"; split; vm_compute; reflexivity|]. reflexivity. Qed.
Lemma stats_once : classes_once stats_loader home_orders home dir_e stats_model.
Proof. apply once_ok. vm_compute. reflexivity. Qed.
Definition turn_text : str := $"Turn on the  LIVING   Room now".
Definition stats_answer : ParseResult :=
  get_ok no_result (parse_with_alternatives demo_ext id_order id_order stats_engine turn_text None None 0 0).
Lemma stats_answers : parse_with_alternatives demo_ext id_order id_order stats_engine turn_text None None 0 0 = Ok stats_answer.
Proof. apply get_ok_eq. vm_compute. reflexivity. Qed.
Lemma stats_listed : get_intents id_order stats_engine turn_text = Ok (listed stats_engine turn_text).
Proof. apply get_ok_eq. vm_compute. reflexivity. Qed.
Lemma stats_name : ir_name (ps_intent stats_answer) = Some $"lightOn".
Proof. vm_compute. reflexivity. Qed.
Lemma stats_sole e : In e (listed stats_engine turn_text) -> feq (ir_score e) (ir_score (ps_intent stats_answer)) = true ->
  ir_name e = Some $"lightOn".
Proof.
  intros I V. apply (in_map (fun r => (ir_name r, feq (ir_score r) (ir_score (ps_intent stats_answer))))) in I. rewrite V in I.
  assert (E : map (fun r => (ir_name r, feq (ir_score r) (ir_score (ps_intent stats_answer)))) (listed stats_engine turn_text) =
              [(Some $"lightOn", true); (Some $"setTemp", false); (None, false)]) by (vm_compute; reflexivity).
  rewrite E in I. clear E V. revert I. generalize (ir_name e). intros n I.
  destruct I as [I|[I|[I|[]]]]; [exact (eq_sym (f_equal fst I))|discriminate (f_equal snd I)|discriminate (f_equal snd I)].
Qed.

(** ** Two rule based parsers: the second one knows the text for another intent only *)
Definition two_documents : list (str * json) :=
  [($"DN", obj [("language_code", txt "en"); ("patterns", obj [("many", arr ["many"])]);
                ("group_names_to_slot_names", JObj (map (fun k => (group_name k, JStr (slot_name k))) (seq 0 55)));
                ("slot_names_to_entities", obj [("many", all_slots)]);
                ("config", obj [("ignore_stop_words", JBool true)])])] ++
  map (fun d => if str_eqb (fst d) $"E" then
                  (fst d, match snd d with
                          | JObj l => JObj (map (fun e => if str_eqb (fst e) $"intent_parsers" then (fst e, arr ["rules"; "more"]) else e) l)
                          | j => j
                          end)
                else d) tie_documents.
Definition two_loader : Loader :=
  mkLoader (fun c => sget c two_documents) home_f32 demo_lang (fun _ => $"en") tie_compile
           (fun _ _ => Ok (fun _ _ _ => Ok [])) (fun _ _ => Ok (fun _ _ _ => Ok [])) (fun _ _ => Err EIo).
Definition two_tree : fs := files
  [(at_ "e/nlu_engine.json", $"E");
   (at_ "e/resources/en/metadata.json", $"R"); (at_ "e/resources/en/stop_words.txt", $"the");
   (at_ "e/custom/metadata.json", $"C");
   (at_ "e/rules/metadata.json", $"D"); (at_ "e/rules/intent_parser.json", $"DM");
   (at_ "e/more/metadata.json", $"D"); (at_ "e/more/intent_parser.json", $"DN")].
Definition load_two : outcome Engine :=
  from_path demo_ext demo_shape no_ngrams demo_math two_loader home_orders home_orders two_tree dir_e.
Definition two_engine : Engine := get_ok no_engine load_two.
Lemma two_eq : load_two = Ok two_engine.
Proof. apply get_ok_eq. vm_compute. reflexivity. Qed.
Definition two_answer : ParseResult :=
  get_ok no_result (parse_with_alternatives demo_ext id_order id_order two_engine tie_text None None 0 0).
Lemma two_answers : parse_with_alternatives demo_ext id_order id_order two_engine tie_text None None 0 0 = Ok two_answer.
Proof. apply get_ok_eq. vm_compute. reflexivity. Qed.
Lemma two_listed : get_intents id_order two_engine tie_text = Ok (listed two_engine tie_text).
Proof. apply get_ok_eq. vm_compute. reflexivity. Qed.
Lemma two_names : ir_name (ps_intent two_answer) = Some $"six" /\
  map ir_name (firstn 2 (listed two_engine tie_text)) = [Some $"many"; Some $"six"].
Proof. split; vm_compute; reflexivity. Qed.
Lemma two_scores : map (fun e => flt (ir_score (ps_intent two_answer)) (ir_score e)) (firstn 1 (listed two_engine tie_text)) = [true].
Proof. vm_compute. reflexivity. Qed.

Lemma two_builtin s k c n : rs_builtin (en_resources two_engine) s k c n = Ok [].
Proof. reflexivity. Qed.
Lemma two_custom k n es : rs_custom (en_resources two_engine) tie_text k n = Ok es -> es = [].
Proof. intros H; vm_compute in H; injection H as <-; reflexivity. Qed.
Lemma two_externals : externals_ok demo_ext two_loader (en_resources two_engine) tie_text.
Proof.
  destruct tie_externals as (T1 & _ & _ & T4). split; [exact T1|]. split; [|split; [|exact T4]].
  - intros f u n es H e He. rewrite two_builtin in H. injection H as <-. contradiction He.
  - intros f n es H e He. apply two_custom in H. subst es. contradiction He.
Qed.

Lemma two_differ : exists x shape ngrams mx L fo uo f p en input o res e rest,
  from_path x shape ngrams mx L fo uo f p = Ok en /\ externals_ok x L (en_resources en) input /\
  parse_with_alternatives x o o en input None None 0 0 = Ok res /\ get_intents o en input = Ok (e :: rest) /\
  ir_name (ps_intent res) = Some $"six" /\ ir_name e = Some $"many" /\ flt (ir_score (ps_intent res)) (ir_score e) = true.
Proof.
  pose proof two_listed as H. pose proof two_names as [N1 N2]. pose proof two_scores as S. revert H N2 S.
  generalize (listed two_engine tie_text). intros l H N2 S. destruct l as [|e rest]; [discriminate N2|].
  exists demo_ext, demo_shape, no_ngrams, demo_math, two_loader, home_orders, home_orders, two_tree, dir_e, two_engine, tie_text, id_order, two_answer, e, rest.
  split; [exact two_eq|]. split; [exact two_externals|]. split; [exact two_answers|]. split; [exact H|]. split; [exact N1|].
  cbn [firstn map] in N2, S. split; [congruence|]. congruence.
Qed.
