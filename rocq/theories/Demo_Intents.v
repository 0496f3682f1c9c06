(** Demonstration material for C87 and C88. *)
From Coq Require Import String List NArith ZArith Bool Arith.
From Verif Require Import Base F32 M_Types M_Utils M_Engine M_Det M_Lookup M_Feat M_Prob M_Features M_Filler M_Cache M_Res M_Fs M_Json M_Load
  S_Base S_Utils S_Engine S_Det S_Rank S_Rules S_Prob S_Load S_Match S_Made S_Seeds S_Narrow S_Intents S_Linear
  P_Base P_Made P_Narrow Demo Demo_Rules Demo_Prob Demo_Crf Demo_Load Demo_Home Demo_Made Demo_Seeds Demo_Narrow.
Import ListNotations.
Local Open Scope string_scope.
Local Open Scope list_scope.
Local Open Scope nat_scope.

(** ** Linear scores that are numbers *)
Definition numbers_b (mx : Math) (o : outcome Classifier) (input : str) : bool :=
  match o with
  | Ok c => match cl_featurizer c, cl_logreg c with
            | Some t, Some lr => match t input with
                                 | Ok fs => forallb (fun j => negb (fis_nan (mx_cell mx (f1 :: fs) (lr_rows lr) j))) (seq 0 (lr_classes lr))
                                 | _ => true
                                 end
            | _, _ => true
            end
  | _ => true
  end.
Lemma numbers_ok x ngrams mx L fo uo f p m res input :
  forallb (fun name => numbers_b mx (load_classifier x ngrams L fo uo f (pjoin (pjoin p name) $"intent_classifier") res) input) (em_parsers m) = true ->
  scores_are_numbers x ngrams mx L fo uo f p m res input.
Proof.
  intros H name c t lr fs j N C Et El Ef Hj. rewrite forallb_forall in H. specialize (H name N). apply classifier_iff in C. rewrite C in H.
  unfold numbers_b in H. rewrite Et, El, Ef in H. rewrite forallb_forall in H. specialize (H j). cbv beta in H.
  destruct (fis_nan (mx_cell mx (f1 :: fs) (lr_rows lr) j)); [|reflexivity]. symmetry. apply H. apply in_seq. split; [apply Nat.le_0_l|exact Hj].
Qed.
Lemma bright_numbers : scores_are_numbers demo_ext no_ngrams demo_math home_loader home_orders (fun _ _ => id_order) home dir_e home_model
  (en_resources home_engine) bright.
Proof. apply numbers_ok. vm_compute. reflexivity. Qed.

Definition listed (en : Engine) (s : str) : list IntentResult := get_ok [] (get_intents id_order en s).
Lemma listed_ok : get_intents id_order home_engine bright = Ok (listed home_engine bright).
Proof. apply get_ok_eq. vm_compute. reflexivity. Qed.
Lemma listed_names : map ir_name (listed home_engine bright) = [Some $"lightOn"; Some $"setTemp"; None].
Proof. vm_compute. reflexivity. Qed.
(** Which confidences are 1, and which are 0. *)
Lemma listed_scores : map (fun r => (feq (ir_score r) f1, feq (ir_score r) f0)) (listed home_engine bright) =
  [(true, false); (false, false); (false, false)].
Proof. vm_compute. reflexivity. Qed.

Lemma bright_known : understood demo_ext home_loader (en_resources home_engine) bright None (Table home_table) $"lightOn" bright_slots.
Proof.
  destruct table_understands as (l & El & _ & g & j & Ig & Ij & _ & R). exists l. split; [exact El|]. split; [exact Logic.I|].
  exists g, j. split; [exact Ig|]. split; [exact Ij|]. split; [exact Logic.I|exact R].
Qed.
Lemma bright_certain j s : understood demo_ext home_loader (en_resources home_engine) bright None (Table home_table) j s -> j = $"lightOn".
Proof. intros U. exact (proj1 (bright_table None j s U)). Qed.

(** ** Rules alone *)
Lemma tie_only name : In name (em_parsers tie_model) -> exists r, rules_at tie_loader home_orders tie_tree (pjoin dir_e name) r.
Proof.
  intros N. exists (Patterns tie_rules). assert (E : name = $"rules") by (revert N; vm_compute; intuition). subst name. exact tie_rules_at.
Qed.
Lemma tie_some : em_parsers tie_model <> [].
Proof. intros E. apply (f_equal (@length str)) in E. vm_compute in E. discriminate E. Qed.

(** ** A coefficient that 32 bits cannot hold: the product of infinity and 0 is not a number *)
Definition nan_math : Math := mkMath (mx_cell demo_math) (fun v => if fis_nan v then v else mx_exp demo_math v).
Lemma nan_exp : exp_nan nan_math.
Proof. intros v N. cbn [mx_exp nan_math]. rewrite N. exact N. Qed.
Definition nan_changes : list (str * json) :=
  [($"LM", obj [("featurizer", txt "featurizer"); ("intercept", nums [0; 1; -1]%Z);
                ("coeffs", JArr [nums [10 ^ 39; -9; 0; 4]%Z; nums [-9; 9; 2; 0]%Z; nums [-1; -1; 0; 0]%Z]);
                ("intent_list", JArr [txt "lightOn"; txt "setTemp"; JNull])])].
Definition nan_documents : list (str * json) :=
  nan_changes ++ filter (fun d => negb (smem (fst d) (map fst nan_changes))) home_documents.
Definition nan_loader : Loader :=
  mkLoader (fun c => sget c nan_documents) home_f32 demo_lang (fun _ => $"en") demo_compile
           (fun _ _ => Ok (fun s kinds alts => demo_builtin s kinds false alts))
           (fun _ _ => Ok home_gaz)
           (fun f p => match f (resolve p) with Some (File _) => Ok demo_tagger | _ => Err EIo end).
Definition load_nan : outcome Engine :=
  from_path demo_ext demo_shape no_ngrams nan_math nan_loader home_orders home_orders home dir_e.
Definition nan_engine : Engine := get_ok no_engine load_nan.
Lemma nan_eq : load_nan = Ok nan_engine.
Proof. apply get_ok_eq. vm_compute. reflexivity. Qed.
Lemma nan_model_at : file_says nan_loader home_orders home dir_e $"nlu_engine.json" d_engine home_model.
Proof.
  exists (doc "E"). split; [exists $"E"; split; vm_compute; reflexivity|]. apply get_ok_eq. vm_compute. reflexivity.
Qed.
Lemma nan_stats_at : unit_at nan_loader home_orders home (pjoin dir_e $"stats") UProbabilistic.
Proof. exists (doc "P"). split; [exists $"P"; split; vm_compute; reflexivity|]. reflexivity. Qed.
Definition no_cl : Classifier := mkCl [] None None.
Definition nan_classifier : Classifier :=
  get_ok no_cl (load_classifier demo_ext no_ngrams nan_loader home_orders home_orders home
                  (pjoin (pjoin dir_e $"stats") $"intent_classifier") (en_resources nan_engine)).
Lemma nan_classifier_at : classifier_at demo_ext no_ngrams nan_loader home_orders home_orders home (en_resources nan_engine)
  (pjoin (pjoin dir_e $"stats") $"intent_classifier") nan_classifier.
Proof. apply classifier_iff. apply get_ok_eq. vm_compute. reflexivity. Qed.
Definition nan_text : str := $"set".
Definition nan_cells : list bool :=
  match cl_featurizer nan_classifier, cl_logreg nan_classifier with
  | Some t, Some lr => map (fun j => fis_nan (mx_cell nan_math (f1 :: get_ok [] (t nan_text)) (lr_rows lr) j)) (seq 0 (lr_classes lr))
  | _, _ => []
  end.
Lemma nan_cells_eq : nan_cells = [true; false; false].
Proof. vm_compute. reflexivity. Qed.
Lemma nan_scores : exists t lr fs, cl_featurizer nan_classifier = Some t /\ cl_logreg nan_classifier = Some lr /\ t nan_text = Ok fs /\
  lr_classes lr <> 1 /\ 0 < lr_classes lr /\ fis_nan (linear nan_math lr fs 0) = true.
Proof.
  assert (E : nan_cells = [true; false; false]) by exact nan_cells_eq. unfold nan_cells in E.
  assert (F : match cl_featurizer nan_classifier with Some t => match t nan_text with Ok _ => true | _ => false end | None => false end = true)
    by (vm_compute; reflexivity).
  destruct (cl_featurizer nan_classifier) as [t|]; [|discriminate]. destruct (cl_logreg nan_classifier) as [lr|]; [|discriminate].
  destruct (t nan_text) as [fs| |] eqn:Et; try discriminate. cbn [get_ok] in E. exists t, lr, fs. split; [reflexivity|]. split; [reflexivity|]. split; [exact Et|].
  pose proof (f_equal (@length bool) E) as Ln. rewrite map_length, seq_length in Ln. cbn [length] in Ln. rewrite Ln in *. split; [discriminate|].
  split; [apply Nat.lt_0_succ|]. cbn [seq map] in E. unfold linear. injection E as E _ _. exact E.
Qed.
Lemma nan_scores_text : scores_text nan_classifier nan_text.
Proof.
  split; [|split; [discriminate|]].
  - assert (E : length (cl_intents nan_classifier) = 3) by (vm_compute; reflexivity). rewrite E. repeat constructor.
  - destruct nan_scores as (t & lr & _ & -> & -> & _). split; discriminate.
Qed.
Lemma nan_stats : In $"stats" (em_parsers home_model).
Proof. vm_compute. auto. Qed.
Lemma nan_panics : match get_intents id_order nan_engine nan_text with Panic => true | _ => false end = true.
Proof. vm_compute. reflexivity. Qed.
