(** Specification vocabulary for the classifier and the probabilistic parser. *)
From Coq Require Import List ZArith.
From Verif Require Import Base F32 M_Types M_Det M_Lookup M_Prob S_Engine.
Import ListNotations.

(** The filter of the caller never concerns the null class. *)
Definition permitted (filter : option (list str)) (class : option str) : Prop :=
  forall i l, class = Some i -> filter = Some l -> In i l.

(** [l] is the ranking of the permitted classes: [ks] are their positions in the list of
    classes, each once; results carry the name and the score found at that position; best
    score first; equal scores in the order of the list of classes. *)
Definition ranks_classes (classes : list (option str)) (scores : list f32)
    (filter : option (list str)) (ks : list nat) (l : list IntentResult) : Prop :=
  NoDup ks /\
  (forall k, In k ks <-> exists i s, nth_error classes k = Some i /\ nth_error scores k = Some s /\
                                     permitted filter i) /\
  Forall2 (fun k r => nth_error classes k = Some (ir_name r) /\
                      nth_error scores k = Some (ir_score r)) ks l /\
  (forall a b ka kb ra rb, a < b ->
     nth_error ks a = Some ka -> nth_error ks b = Some kb ->
     nth_error l a = Some ra -> nth_error l b = Some rb ->
     fle (ir_score rb) (ir_score ra) = true /\
     (fle (ir_score ra) (ir_score rb) = true -> ka < kb)).

(** A classifier for which the filter always works. *)
Definition filterable (c : Classifier) : Prop :=
  2 <= length (cl_intents c) /\ In None (cl_intents c).

(** The texts on which a classifier computes scores. *)
Definition scores_text (c : Classifier) (input : str) : Prop :=
  2 <= length (cl_intents c) /\ input <> [] /\ cl_featurizer c <> None /\ cl_logreg c <> None.

(** The parsers of the library. *)
Inductive library_parser : IntentParser -> Prop :=
| lib_det x o dp : library_parser (det_intent_parser x o dp)
| lib_lookup x o lp : library_parser (lookup_intent_parser x o lp)
| lib_prob mx c o fillers : filterable c ->
    library_parser (prob_intent_parser (prob_new o (logreg_classifier mx c) fillers)).

(** Contract of the exponential: non-negative, NaN only on NaN. *)
Definition exp_ok (mx : Math) : Prop :=
  forall v, fis_nan v = false -> fle f0 (mx_exp mx v) = true.

(** A coefficient table with at least [classes] rows at least as long as the first. *)
Definition full_table (classes : nat) (coeffs : list (list f32)) : Prop :=
  exists first rest, coeffs = first :: rest /\
    (first <> [] -> classes <= length coeffs /\
       forall row, In row (firstn classes coeffs) -> length first <= length row).

(** Logistic function, in binary32. *)
Definition logistic (mx : Math) (v : f32) : f32 := fdiv f1 (fadd f1 (mx_exp mx (fneg v))).

Definition in_unit (v : f32) : Prop := fle f0 v = true /\ fle v f1 = true.

(** The slot filler of an intent: the last one given for it. *)
Definition own_filler (fillers : list (str * (str -> outcome (list InternalSlot)))) (i : str)
    (f : str -> outcome (list InternalSlot)) : Prop :=
  exists before after, fillers = before ++ (i, f) :: after /\ ~ In i (map fst after).

(** The number of classes that a regression scores. *)
Definition scored_classes (lr : Logreg) : nat := if lr_classes lr =? 1 then 2 else lr_classes lr.
