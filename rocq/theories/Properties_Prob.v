(** Theorems about the intent classifier and the probabilistic parser: C01 (end to end),
    C44, C45. *)
From Coq Require Import String List NArith ZArith Bool Permutation.
From Verif Require Import Base F32 M_Types M_Utils M_Engine M_Det M_Lookup M_Prob
  S_Base S_Engine S_Prob P_Engine P_Logit P_Prob Demo Demo_Rules Demo_Prob.
Import ListNotations.

(** ** C01, end to end: an engine made of the parsers of the library, where every
    classifier has at least two classes including the null class, never answers an intent
    the filters exclude. *)
Theorem C01_end_to_end : forall x o1 o2 en input w b n salts res,
  (forall p, In p (en_parsers en) -> library_parser p) ->
  (w <> None \/ b <> None) ->
  parse_with_alternatives x o1 o2 en input w b n salts = Ok res ->
  (forall i, ir_name (ps_intent res) = Some i -> known en i /\ allowed w b i) /\
  (forall a i, In a (ps_alternatives res) -> ir_name (al_intent a) = Some i ->
               known en i /\ allowed w b i).
Proof. exact library_filters. Qed.
Print Assumptions C01_end_to_end.

Example C01_end_to_end_case :
  (forall p, In p (en_parsers three_parsers) -> library_parser p) /\
  (exists res, parse_with_alternatives demo_ext id_order id_order three_parsers
      $"blah blah" (Some [$"lightOn"; $"setTemp"]) None 0 0 = Ok res /\
      ir_name (ps_intent res) = Some $"lightOn") /\
  (exists res, parse_with_alternatives demo_ext id_order id_order three_parsers
      $"blah blah" None (Some [$"lightOn"]) 0 0 = Ok res /\
      ir_name (ps_intent res) = Some $"setTemp").
Proof.
  split; [|split].
  - intros p [<-|[<-|[<-|[]]]]; constructor. split; [simpl; auto|simpl; auto].
  - eexists (get_ok no_result _). split; [apply get_ok_eq|]; vm_compute; reflexivity.
  - eexists (get_ok no_result _). split; [apply get_ok_eq|]; vm_compute; reflexivity.
Qed.

(** A classifier with several classes honours the filter on every text it scores, null
    class or not. *)
Theorem C01_scored_texts : forall mx c input w r i,
  scores_text c input -> cl_get_intent mx c input (Some w) = Ok r -> ir_name r = Some i -> In i w.
Proof. exact scored_honours. Qed.
Print Assumptions C01_scored_texts.

Example C01_scored_texts_case :
  scores_text nullless_classifier $"ab" /\
  ir_name (get_ok no_ir (cl_get_intent demo_math nullless_classifier $"ab" (Some [$"lightOn"]))) = Some $"lightOn" /\
  ir_name (get_ok no_ir (cl_get_intent demo_math nullless_classifier $"ab" (Some [$"setTemp"]))) = Some $"setTemp".
Proof. repeat split; try discriminate; try (simpl; auto; fail); vm_compute; reflexivity. Qed.

(** The failing half: a single class ignores every filter... *)
Theorem C01_single_class_ignores_filter : forall mx c i,
  cl_intents c = [Some i] -> forall input w, cl_get_intent mx c input w = Ok (mkIR (Some i) f1).
Proof. exact single_class. Qed.
Print Assumptions C01_single_class_ignores_filter.

(** ... so does the empty text without a null class... *)
Theorem C01_no_null_class_ignores_filter : forall mx c i j r,
  cl_intents c = Some i :: Some j :: r -> ~ In None r ->
  forall w, exists s, cl_get_intent mx c [] w = Ok (mkIR (Some i) s).
Proof. exact no_null_class. Qed.
Print Assumptions C01_no_null_class_ignores_filter.

(** ... and the engine then answers an intent that the caller excluded. *)
Theorem C01_filters_refuted :
  (exists res, parse_with_alternatives demo_ext id_order id_order (demo_engine [prob_of lone_classifier])
                 $"set the heat" None (Some [$"lightOn"]) 0 0 = Ok res /\
               ir_name (ps_intent res) = Some $"lightOn") /\
  (exists res, parse_with_alternatives demo_ext id_order id_order (demo_engine [prob_of nullless_classifier])
                 [] (Some [$"setTemp"]) None 0 0 = Ok res /\
               ir_name (ps_intent res) = Some $"lightOn").
Proof.
  split; eexists (get_ok no_result _); (split; [apply get_ok_eq|]; vm_compute; reflexivity).
Qed.
Print Assumptions C01_filters_refuted.

(** ** C44: the classifier lists every permitted class once, with its score, best first *)
Theorem C44_classes_ranked : forall mx c input w t lr fs scores l,
  scores_text c input -> cl_featurizer c = Some t -> cl_logreg c = Some lr ->
  t input = Ok fs -> logreg_run mx lr fs = Ok scores ->
  get_intents_with_whitelist mx c input w = Ok l ->
  exists ks, ranks_classes (cl_intents c) scores w ks l.
Proof. exact classifier_lists. Qed.
Print Assumptions C44_classes_ranked.

(** The features that the classifier reports for a text are those from which the scores of its
    classes are computed; it reports none when it has no featurizer. *)
Theorem C44_features : forall mx c input w lr l,
  scores_text c input -> cl_logreg c = Some lr -> get_intents_with_whitelist mx c input w = Ok l ->
  exists fs scores ks, cl_compute_features c input = Ok fs /\ logreg_run mx lr fs = Ok scores /\
    ranks_classes (cl_intents c) scores w ks l.
Proof. exact classifier_features. Qed.
Print Assumptions C44_features.
Theorem C44_no_features : forall c input, cl_featurizer c = None -> cl_compute_features c input = Ok [].
Proof. exact no_featurizer. Qed.
Print Assumptions C44_no_features.

(** It succeeds unless a score is NaN. *)
Theorem C44_classifier_succeeds : forall mx c input w t lr fs scores,
  scores_text c input -> cl_featurizer c = Some t -> cl_logreg c = Some lr ->
  t input = Ok fs -> logreg_run mx lr fs = Ok scores ->
  (forall s, In s scores -> fis_nan s = false) ->
  exists l, get_intents_with_whitelist mx c input w = Ok l.
Proof. exact classifier_no_panic. Qed.
Print Assumptions C44_classifier_succeeds.

(** Names are listed once when the classes are distinct. *)
Theorem C44_names_once : forall classes scores w ks l,
  NoDup classes -> ranks_classes classes scores w ks l -> NoDup (map ir_name l).
Proof. exact ranks_NoDup. Qed.
Print Assumptions C44_names_once.

(** [get_intent] is the first of the list; nothing permitted is the null intent. *)
Theorem C44_best_is_first : forall mx c input w,
  cl_get_intent mx c input w =
  match get_intents_with_whitelist mx c input w with
  | Ok (r :: _) => Ok r
  | Ok [] => Ok (mkIR None f1)
  | Err e => Err e
  | Panic => Panic
  end.
Proof. exact get_intent_first. Qed.
Print Assumptions C44_best_is_first.

(** Texts without features: the null class has score 1, the others 0, no filter. *)
Theorem C44_unscored_texts : forall mx c input w l,
  2 <= length (cl_intents c) -> (input = [] \/ cl_featurizer c = None \/ cl_logreg c = None) ->
  get_intents_with_whitelist mx c input w = Ok l ->
  exists ks, ranks_classes (cl_intents c)
               (map (fun i => match i with None => f1 | Some _ => f0 end) (cl_intents c)) None ks l.
Proof. exact fallback_listing. Qed.
Print Assumptions C44_unscored_texts.

(** The regression fails exactly when the number of features is not the expected one. *)
Theorem C44_shape_errors : forall mx lr fs,
  (logreg_run mx lr fs = Err EShape <-> length fs <> length (lr_rows lr) - 1) /\
  (length fs = length (lr_rows lr) - 1 -> exists scores, logreg_run mx lr fs = Ok scores).
Proof. exact logreg_run_shape. Qed.
Print Assumptions C44_shape_errors.

(** The scores are the logistic function of the linear scores; a model with a single
    column is binary and gives 1-p and p. *)
Theorem C44_scores : forall mx lr fs scores,
  logreg_run mx lr fs = Ok scores ->
  (lr_classes lr <> 1 ->
     length scores = lr_classes lr /\
     forall j, j < lr_classes lr ->
       nth_error scores j = Some (logistic mx (mx_cell mx (f1 :: fs) (lr_rows lr) j))) /\
  (lr_classes lr = 1 ->
     exists p, p = logistic mx (mx_cell mx (f1 :: fs) (lr_rows lr) 0) /\ scores = [fsub f1 p; p]).
Proof. exact logreg_scores. Qed.
Print Assumptions C44_scores.

(** They are in [0, 1], whatever the weights, as long as no linear score is NaN. *)
Theorem C44_scores_in_unit : forall mx lr fs scores,
  exp_ok mx -> (forall j, j < lr_classes lr -> fis_nan (mx_cell mx (f1 :: fs) (lr_rows lr) j) = false) ->
  logreg_run mx lr fs = Ok scores -> forall s, In s scores -> in_unit s.
Proof. exact logreg_unit. Qed.
Print Assumptions C44_scores_in_unit.

(** Loading: the first row of the matrix is the intercept and the others are the
    transposed coefficients; a table with a missing coefficient is a crash. *)
Theorem C44_loading : forall intercept coeffs,
  match logreg_new intercept coeffs with
  | Ok lr =>
      full_table (length intercept) coeffs /\
      lr_classes lr = length intercept /\
      length (lr_rows lr) = S (length (hd [] coeffs)) /\
      nth_error (lr_rows lr) 0 = Some intercept /\
      (forall i j, i < length (hd [] coeffs) -> j < length intercept ->
         exists row cls, nth_error (lr_rows lr) (S i) = Some row /\ nth_error coeffs j = Some cls /\
           length row = length intercept /\ nth_error row j = nth_error cls i)
  | Err _ => False
  | Panic => ~ full_table (length intercept) coeffs
  end.
Proof. exact logreg_new_spec. Qed.
Print Assumptions C44_loading.

Example C44_case :
  exp_ok demo_math /\ scores_text demo_classifier $"abcd" /\
  NoDup (cl_intents demo_classifier) /\
  lr_classes demo_logreg = 3 /\ length (lr_rows demo_logreg) - 1 = 2 /\
  forallb (fun j => negb (fis_nan (mx_cell demo_math [f1; f32_of_nat 4; f_of (-1) 2] (lr_rows demo_logreg) j))) [0; 1; 2] = true /\
  map ir_name (get_ok [] (get_intents_with_whitelist demo_math demo_classifier $"abcd" None))
  = [Some $"lightOn"; Some $"setTemp"; None] /\
  map ir_name (get_ok [] (get_intents_with_whitelist demo_math demo_classifier $"ab" (Some [$"lightOn"])))
  = [Some $"lightOn"; None] /\
  map ir_name (get_ok [] (get_intents_with_whitelist demo_math demo_classifier [] (Some [$"lightOn"])))
  = [None; Some $"lightOn"; Some $"setTemp"] /\
  is_ok (logreg_new [f1; f1] [[f1; f0]]) = false.
Proof.
  split; [exact demo_exp_ok|].
  split; [repeat split; try discriminate; simpl; auto|].
  split; [repeat constructor; simpl; intuition discriminate|].
  repeat split; vm_compute; reflexivity.
Qed.

(** ** C45: the probabilistic parser *)
Theorem C45_parse : forall o ic fillers input w,
  match ic_get_intent ic input w with
  | Err e => prob_parse (prob_new o ic fillers) input w = Err e
  | Panic => prob_parse (prob_new o ic fillers) input w = Panic
  | Ok r =>
      match ir_name r with
      | None => prob_parse (prob_new o ic fillers) input w = Ok (mkIPR r [])
      | Some i =>
          (forall f, own_filler fillers i f ->
             (forall slots, f input = Ok slots ->
                prob_parse (prob_new o ic fillers) input w = Ok (mkIPR r slots)) /\
             (forall e, f input = Err e -> prob_parse (prob_new o ic fillers) input w = Err e) /\
             (f input = Panic -> prob_parse (prob_new o ic fillers) input w = Panic)) /\
          ((forall f, ~ own_filler fillers i f) ->
             prob_parse (prob_new o ic fillers) input w = Err EUnknownIntent)
      end
  end.
Proof. exact prob_parse_spec. Qed.
Print Assumptions C45_parse.

Theorem C45_get_slots : forall o ic fillers input i,
  (forall f, own_filler fillers i f -> prob_get_slots (prob_new o ic fillers) input i = f input) /\
  ((forall f, ~ own_filler fillers i f) -> exists e, prob_get_slots (prob_new o ic fillers) input i = Err e).
Proof. exact prob_get_slots_spec. Qed.
Print Assumptions C45_get_slots.

Theorem C45_get_intents : forall o ic fillers input,
  prob_get_intents (prob_new o ic fillers) input = ic_get_intents ic input.
Proof. exact (fun o ic fillers input => eq_refl). Qed.
Print Assumptions C45_get_intents.

(** [get_intents] applies no filter: it lists every class once, the first ones only when the
    regression gives fewer scores than there are classes. *)
Theorem C45_lists_every_class : forall mx c o fillers input l,
  prob_get_intents (prob_new o (logreg_classifier mx c) fillers) input = Ok l ->
  (forall lr, scores_text c input -> cl_logreg c = Some lr ->
     Permutation (map ir_name l) (firstn (scored_classes lr) (cl_intents c))) /\
  (~ scores_text c input -> cl_intents c <> [] -> Permutation (map ir_name l) (cl_intents c)).
Proof. exact lists_every_class. Qed.
Print Assumptions C45_lists_every_class.

(** The last slot filler given for lightOn is used. *)
Example C45_case :
  own_filler demo_fillers $"lightOn" (fun _ => Ok []) /\
  ir_name (pr_intent (get_ok no_ipr (ip_parse demo_prob $"abcd" None))) = Some $"lightOn" /\
  map is_value (pr_slots (get_ok no_ipr (ip_parse demo_prob $"abcd" None))) = [] /\
  ip_get_slots demo_prob $"abcd" $"other" = Err EOther /\
  map ir_name (get_ok [] (ip_get_intents demo_prob $"abcd")) = [Some $"lightOn"; Some $"setTemp"; None].
Proof.
  split; [|repeat split; vm_compute; reflexivity].
  eexists [_; _], []. split; [reflexivity|]. auto.
Qed.
