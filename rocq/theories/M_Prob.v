(** Model of src/intent_classifier/log_reg_intent_classifier.rs, logreg.rs and of
    src/intent_parser/probabilistic_intent_parser.rs. *)
From Coq Require Import String List NArith ZArith Bool Arith.
From Verif Require Import Base Sorting F32 M_Types M_Utils M_Engine.
Import ListNotations.

(** External numeric functions: a cell of a matrix product (ndarray; the order of the
    additions is up to the library) and [f32::exp] (libm).  ndarray and [f32::exp], used
    in logreg.rs:42-58. *)
Record Math := mkMath {
  mx_cell : list f32 -> list (list f32) -> nat -> f32;   (* row, matrix, column *)
  mx_exp : f32 -> f32
}.

(** logreg.rs:8-16: the matrix with the intercept as first row: [lr_rows] rows of
    [lr_classes] numbers. *)
Record Logreg := mkLR { lr_classes : nat; lr_rows : list (list f32) }.

(** log_reg_intent_classifier.rs:53-62 and logreg.rs:33-41.  The deserialized matrix has
    one row per class; a missing row or coefficient is an out of bounds index. *)
Definition logreg_new (intercept : list f32) (coeffs : list (list f32)) : outcome Logreg :=
  let nb_classes := length intercept in
  let* first := index coeffs 0 in
  let* weights := mapM (fun i => mapM (fun j => let* row := index coeffs j in index row i) (seq 0 nb_classes))
                       (seq 0 (length first)) in
  Ok (mkLR nb_classes (intercept :: weights)).

(** logreg.rs:56-58 *)
Definition logit (mx : Math) (v : f32) : f32 := fdiv f1 (fadd f1 (mx_exp mx (fneg v))).

(** logreg.rs:42-53.  [into_shape] fails when the sizes differ. *)
Definition logreg_run (mx : Math) (lr : Logreg) (features : list f32) : outcome (list f32) :=
  if length features =? length (lr_rows lr) - 1
  then let result := map (fun j => logit mx (mx_cell mx (f1 :: features) (lr_rows lr) j)) (seq 0 (lr_classes lr)) in
       Ok (if lr_classes lr =? 1
           then match result with r :: _ => [fsub f1 r; r] | [] => [] end
           else result)
  else Err EShape.

(** log_reg_intent_classifier.rs:21-25; the featurizer is represented by [transform]. *)
Record Classifier := mkCl {
  cl_intents : list (option str);
  cl_featurizer : option (str -> outcome (list f32));
  cl_logreg : option Logreg
}.

(** log_reg_intent_classifier.rs:101-154 *)
Definition get_intents_with_whitelist (mx : Math) (c : Classifier) (input : str)
    (whitelist : option (list str)) : outcome (list IntentResult) :=
  if length (cl_intents c) <=? 1
  then Ok [mkIR (match cl_intents c with i :: _ => i | [] => None end) f1]
  else
    let unscored := sort_desc ir_score
                      (map (fun i => mkIR i (match i with None => f1 | Some _ => f0 end)) (cl_intents c)) in
    match input, cl_featurizer c, cl_logreg c with
    | _ :: _, Some transform, Some lr =>
        let* features := transform input in
        let* scores := logreg_run mx lr features in
        sort_desc ir_score
          (filter (fun r => match ir_name r with
                            | Some i => match whitelist with Some w => smem i w | None => true end
                            | None => true
                            end)
                  (map (fun is => mkIR (fst is) (snd is)) (combine (cl_intents c) scores)))
    | _, _, _ => unscored
    end.

(** log_reg_intent_classifier.rs:76-93 *)
Definition cl_get_intent (mx : Math) (c : Classifier) (input : str) (whitelist : option (list str))
    : outcome IntentResult :=
  let* rs := get_intents_with_whitelist mx c input whitelist in
  Ok (match rs with r :: _ => r | [] => mkIR None f1 end).

(** log_reg_intent_classifier.rs:95-97 *)
Definition cl_get_intents (mx : Math) (c : Classifier) (input : str) : outcome (list IntentResult) :=
  get_intents_with_whitelist mx c input None.

(** log_reg_intent_classifier.rs:157-164 *)
Definition cl_compute_features (c : Classifier) (input : str) : outcome (list f32) :=
  match cl_featurizer c with Some transform => transform input | None => Ok [] end.

(** The trait [IntentClassifier], src/intent_classifier/mod.rs:19-27. *)
Record IntentClassifier := mkIC {
  ic_get_intent : str -> option (list str) -> outcome IntentResult;
  ic_get_intents : str -> outcome (list IntentResult)
}.
(** log_reg_intent_classifier.rs:75-98 *)
Definition logreg_classifier (mx : Math) (c : Classifier) : IntentClassifier :=
  mkIC (cl_get_intent mx c) (cl_get_intents mx c).

(** probabilistic_intent_parser.rs:19-22; a slot filler is represented by [get_slots]. *)
Record ProbParser := mkPP {
  pp_classifier : IntentClassifier;
  pp_fillers : list (str * (str -> outcome (list InternalSlot)))
}.

(** probabilistic_intent_parser.rs:40-57: the map of slot fillers; the last one given
    for an intent is kept.  [o]: order of the map. *)
Definition prob_new (o : HashOrder) (cl : IntentClassifier)
    (fillers : list (str * (str -> outcome (list InternalSlot)))) : ProbParser :=
  mkPP cl (reorder o (hcollect str_eqb fillers)).

(** probabilistic_intent_parser.rs:61-81 *)
Definition prob_parse (p : ProbParser) (input : str) (whitelist : option (list str))
    : outcome InternalParsingResult :=
  let* intent := ic_get_intent (pp_classifier p) input whitelist in
  let* slots := match ir_name intent with
                | Some name => let* filler := ok_or EUnknownIntent (sget name (pp_fillers p)) in filler input
                | None => Ok []
                end in
  Ok (mkIPR intent slots).

(** probabilistic_intent_parser.rs:83-92 *)
Definition prob_get_intents (p : ProbParser) (input : str) : outcome (list IntentResult) :=
  ic_get_intents (pp_classifier p) input.
(** probabilistic_intent_parser.rs:87-92 *)
Definition prob_get_slots (p : ProbParser) (input intent : str) : outcome (list InternalSlot) :=
  let* filler := ok_or EOther (sget intent (pp_fillers p)) in filler input.

(** probabilistic_intent_parser.rs:60-93 *)
Definition prob_intent_parser (p : ProbParser) : IntentParser :=
  mkIP (prob_parse p) (prob_get_intents p) (prob_get_slots p).
