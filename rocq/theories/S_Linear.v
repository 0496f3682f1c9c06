(** Specification vocabulary for C86: confidences and linear scores. *)
From Coq Require Import List ZArith.
From Verif Require Import Base F32 M_Types M_Prob S_Prob.
Import ListNotations.

(** The exponential is not decreasing. *)
Definition exp_monotone (mx : Math) : Prop :=
  forall v w, fle v w = true -> fle (mx_exp mx v) (mx_exp mx w) = true.
Definition exp_zero (mx : Math) : Prop := mx_exp mx f0 = f1.

(** The linear score of a class: its weights times the features, plus its intercept. *)
Definition linear (mx : Math) (lr : Logreg) (features : list f32) (class : nat) : f32 :=
  mx_cell mx (f1 :: features) (lr_rows lr) class.

(** 2^-24, the half distance between 1 and the next number. *)
Definition tiny : f32 := fdiv f1 (f32_of_Z 16777216).

(** The product of a row with one number, 1, and a matrix of one row is this row. *)
Definition cell_of_one (mx : Math) : Prop :=
  forall row j v, nth_error row j = Some v -> fis_nan v = false -> feq (mx_cell mx [f1] [row] j) v = true.

(** A classifier without features, for two intents and the null class. *)
Definition flat_classifier (lr : Logreg) (a b : str) : Classifier :=
  mkCl [Some a; Some b; None] (Some (fun _ => Ok [])) (Some lr).
