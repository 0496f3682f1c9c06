(** C86: confidences of the classifier and linear scores. *)
From Coq Require Import String List NArith ZArith.
From Flocq Require Import IEEE754.BinarySingleNaN.
From Verif Require Import Base F32 M_Types M_Prob S_Prob S_Linear P_Linear Demo Demo_Prob Demo_Linear.
Import ListNotations.
Local Open Scope string_scope.
Local Open Scope list_scope.
Local Open Scope nat_scope.

(** A greater linear score never gives a smaller confidence, in binary32. *)
Theorem C86_monotone : forall mx v w, exp_ok mx -> exp_monotone mx ->
  fle v w = true -> fle (logistic mx v) (logistic mx w) = true.
Proof. exact logistic_le. Qed.
Print Assumptions C86_monotone.

(** Intents are listed by decreasing linear score; two of them are listed against this order, or
    have equal linear scores, only when their confidences are equal, and then in the order of the
    model's list of classes. *)
Theorem C86_order : forall mx c input w t lr fs l, exp_ok mx -> exp_monotone mx ->
  scores_text c input -> cl_featurizer c = Some t -> cl_logreg c = Some lr -> t input = Ok fs -> lr_classes lr <> 1 ->
  get_intents_with_whitelist mx c input w = Ok l ->
  forall a b ra rb, a < b -> nth_error l a = Some ra -> nth_error l b = Some rb ->
  exists ka kb, nth_error (cl_intents c) ka = Some (ir_name ra) /\ nth_error (cl_intents c) kb = Some (ir_name rb) /\ ka <> kb /\
    (fle (linear mx lr fs ka) (linear mx lr fs kb) = true -> feq (ir_score ra) (ir_score rb) = true /\ ka < kb).
Proof. exact linear_order. Qed.
Print Assumptions C86_order.

(** With one row of weights for two classes, the sign of the linear score decides. *)
Theorem C86_binary : forall mx lr fs scores, exp_ok mx -> exp_monotone mx -> exp_zero mx -> lr_classes lr = 1 ->
  logreg_run mx lr fs = Ok scores -> exists s0 s1, scores = [s0; s1] /\
    (fle f0 (linear mx lr fs 0) = true -> fle s0 s1 = true) /\ (fle (linear mx lr fs 0) f0 = true -> fle s1 s0 = true).
Proof. exact binary_order. Qed.
Print Assumptions C86_binary.

(** When exp(-v) is at most 2^-24 the confidence is exactly 1; when it overflows the confidence is 0. *)
Theorem C86_saturated : forall mx v,
  (fle f0 (mx_exp mx (fneg v)) = true -> fle (mx_exp mx (fneg v)) tiny = true -> logistic mx v = f1) /\
  (mx_exp mx (fneg v) = B754_infinity false -> logistic mx v = f0).
Proof. intros mx v. exact (conj (saturated mx v) (saturated_low mx v)). Qed.
Print Assumptions C86_saturated.

(** A class that reaches 1 is only beaten by classes listed before it, which reach 1 too. *)
Theorem C86_saturated_answer : forall mx c input w t lr fs r, exp_ok mx ->
  scores_text c input -> cl_featurizer c = Some t -> cl_logreg c = Some lr -> t input = Ok fs -> lr_classes lr <> 1 ->
  (forall j, j < lr_classes lr -> fis_nan (linear mx lr fs j) = false) ->
  cl_get_intent mx c input w = Ok r ->
  forall k i, k < lr_classes lr -> nth_error (cl_intents c) k = Some i -> permitted w i ->
  fle (mx_exp mx (fneg (linear mx lr fs k))) tiny = true ->
  feq (ir_score r) f1 = true /\ exists k', k' <= k /\ nth_error (cl_intents c) k' = Some (ir_name r).
Proof. exact saturated_answer. Qed.
Print Assumptions C86_saturated_answer.

(** "The class with the greatest linear score is the answer" is false: of two classes with linear
    scores 17 and 100 the first one is the answer. *)
Theorem C86_greatest_wins_refuted : forall mx a b input, exp_ok mx -> cell_of_one mx ->
  fle (mx_exp mx (f32_of_Z (-17))) tiny = true -> input <> [] ->
  exists lr r, logreg_new [f32_of_Z 17; f32_of_Z 100; f0] [[]; []; []] = Ok lr /\
    cl_get_intent mx (flat_classifier lr a b) input None = Ok r /\ ir_name r = Some a /\ feq (ir_score r) f1 = true /\
    flt (linear mx lr [] 0) (linear mx lr [] 1) = true.
Proof. exact smaller_wins. Qed.
Print Assumptions C86_greatest_wins_refuted.

Example C86_case :
  exp_ok step_math /\ exp_monotone step_math /\ exp_zero step_math /\ cell_of_one step_math /\
  fle (mx_exp step_math (f32_of_Z (-17))) tiny = true /\
  scores_text demo_classifier $"light" /\ lr_classes demo_logreg <> 1 /\
  step_names $"light" = [Some $"lightOn"; Some $"setTemp"; None] /\
  flat_answer $"light" = Some (Some $"a") /\
  two_scores 5 = Some true /\ two_scores 1 = Some false.
Proof.
  split; [exact step_exp_ok|]. split; [exact step_monotone|]. split; [exact step_zero|]. split; [exact step_cell|].
  split; [exact step_small|]. split; [repeat split; try discriminate; repeat constructor|]. split; [discriminate|].
  repeat split; vm_compute; reflexivity.
Qed.
