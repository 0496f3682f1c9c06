(** Classifiers used by the examples of C86. *)
From Coq Require Import String List NArith ZArith Bool Lia Reals Lra.
From Flocq Require Import Core.Core IEEE754.BinarySingleNaN.
From Verif Require Import Base Sorting F32 M_Types M_Prob S_Prob S_Linear Demo Demo_Prob P_F32 P_Logit P_Linear.
Import ListNotations.

(** A matrix product by plain summation, and four steps instead of the exponential. *)
Definition step_exp (v : f32) : f32 :=
  if fle v (f32_of_Z (-17)) then tiny else if fle v (f32_of_Z (-1)) then f_of 1 2 else if fle v f0 then f1 else f_of 3 1.
Definition step_math : Math := mkMath (mx_cell demo_math) step_exp.

Lemma step_exp_ok : exp_ok step_math.
Proof. intros v _. cbn [mx_exp step_math]. unfold step_exp. repeat destruct (fle v _); vm_compute; reflexivity. Qed.
Lemma step_zero : exp_zero step_math.
Proof. unfold exp_zero. cbn [mx_exp step_math]. unfold step_exp. apply B2SF_inj. vm_compute. reflexivity. Qed.
Lemma step_monotone : exp_monotone step_math.
Proof.
  intros v w H. cbn [mx_exp step_math]. unfold step_exp.
  assert (T : forall c, fle w c = true -> fle v c = true) by (intros c Hc; exact (fle_trans _ _ _ H Hc)).
  pose proof (T (f32_of_Z (-17))) as A. pose proof (T (f32_of_Z (-1))) as B. pose proof (T f0) as D. clear T H.
  generalize dependent (fle w (f32_of_Z (-17))). generalize dependent (fle w (f32_of_Z (-1))). generalize dependent (fle w f0).
  generalize (fle v (f32_of_Z (-17))). generalize (fle v (f32_of_Z (-1))). generalize (fle v f0).
  intros c b a c' D b' B a' A.
  destruct a'; [rewrite A by reflexivity; vm_compute; reflexivity|].
  destruct b'; [rewrite B by reflexivity; destruct a; vm_compute; reflexivity|].
  destruct c'; [rewrite D by reflexivity|]; destruct a, b; try destruct c; vm_compute; reflexivity.
Qed.
Lemma step_small : fle (mx_exp step_math (f32_of_Z (-17))) tiny = true.
Proof. vm_compute. reflexivity. Qed.
Lemma plain_one (v : f32) : fis_nan v = false -> feq (fadd f0 (fmul f1 v)) v = true.
Proof.
  intros N. destruct (is_finite v) eqn:F; [|destruct v as [|[|]| |]; try discriminate; vm_compute; reflexivity].
  assert (B := abs_B2R_lt_emax 24 128 v).
  assert (E : rnd (B2R v) = B2R v) by apply rnd_format, format_B2R.
  pose proof (Bmult_correct 24 128 _ _ mode_NE f1 v) as C. fold (fmul f1 v) in C. simpl round_mode in C.
  fold (rnd (B2R f1 * B2R v)) in C. rewrite f1_R, Rmult_1_l, E, Rlt_bool_true in C by exact B. destruct C as (C1 & C2 & _).
  rewrite F in C2. pose proof (Bplus_correct 24 128 _ _ mode_NE f0 (fmul f1 v) eq_refl C2) as D. fold (fadd f0 (fmul f1 v)) in D.
  simpl round_mode in D. fold (rnd (B2R f0 + B2R (fmul f1 v))) in D. change (B2R f0) with 0%R in D. rewrite Rplus_0_l, C1, E, Rlt_bool_true in D by exact B.
  destruct D as (D1 & D2 & _). unfold feq. rewrite (Beqb_correct _ _ _ _ D2 F), D1. apply Req_bool_true. reflexivity.
Qed.
Lemma step_cell : cell_of_one step_math.
Proof.
  intros row j v H N. cbn [step_math mx_cell demo_math combine map fst snd]. rewrite (nth_error_nth _ _ f0 H). exact (plain_one v N).
Qed.

(** The names ranked by the demo classifier, and the answer of the saturated one. *)
Definition step_names (input : str) : list (option str) :=
  match get_intents_with_whitelist step_math demo_classifier input None with Ok l => map ir_name l | _ => [] end.
Definition flat_logreg : Logreg := mkLR 3 [[f32_of_Z 17; f32_of_Z 100; f0]].
Definition flat_answer (input : str) : option (option str) :=
  match cl_get_intent step_math (flat_classifier flat_logreg $"a" $"b") input None with Ok r => Some (ir_name r) | _ => None end.
(** A regression with one column, for two classes. *)
Definition two_logreg : Logreg := mkLR 1 [[f_of (-3) 1]; [f1]].
Definition two_scores (n : nat) : option bool :=
  match logreg_run step_math two_logreg [f32_of_nat n] with Ok [s0; s1] => Some (fle s0 s1) | _ => None end.
