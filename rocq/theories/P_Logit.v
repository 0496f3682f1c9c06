(** The logistic function stays between 0 and 1 in binary32. *)
From Coq Require Import ZArith List Bool Lia Reals Lra.
From Flocq Require Import Core.Core IEEE754.BinarySingleNaN.
From Verif Require Import Base Sorting F32 M_Prob S_Prob P_Base P_F32.
Import ListNotations.
Open Scope R_scope.

Lemma format_0 : format 0.
Proof. apply generic_format_0. Qed.
Lemma format_1 : format 1.
Proof. change 1 with (IZR 1). apply format_IZR. lia. Qed.

Lemma bpow128_gt1 : 1 < bpow radix2 128.
Proof. apply (bpow_lt radix2 0 128). lia. Qed.

(** 1 + e for e >= 0: either plus infinity or a finite number of at least 1. *)
Lemma one_plus (e : f32) : fle f0 e = true ->
  fadd f1 e = B754_infinity false \/ (is_finite (fadd f1 e) = true /\ 1 <= B2R (fadd f1 e)).
Proof.
  intros H. destruct (is_finite e) eqn:Fe.
  - apply fle_R in H; auto. rewrite f0_R in H.
    assert (C := Bplus_correct 24 128 _ _ mode_NE f1 e f1_finite Fe).
    simpl round_mode in C. fold (rnd (B2R f1 + B2R e)) in C. rewrite f1_R in C.
    destruct (Rlt_bool_spec (Rabs (rnd (1 + B2R e))) (bpow radix2 128)) as [L|L].
    + destruct C as (C1 & C2 & _). right. unfold fadd. rewrite C1, C2. split; auto.
      apply rnd_ge_format; [apply format_1|lra].
    + destruct C as (C1 & C2). left. unfold fadd.
      destruct (Bplus mode_NE f1 e) as [s|s| |s m ex Hb]; try discriminate.
      destruct s; [discriminate|reflexivity].
  - destruct e as [|[|]| |]; try discriminate. left. reflexivity.
Qed.

Lemma one_over (d : f32) :
  d = B754_infinity false \/ (is_finite d = true /\ 1 <= B2R d) ->
  is_finite (fdiv f1 d) = true /\ 0 <= B2R (fdiv f1 d) <= 1.
Proof.
  intros [->|[Fd Hd]].
  - split; [reflexivity|]. simpl. lra.
  - assert (0 <= 1 / B2R d <= 1).
    { split.
      - apply Rlt_le, Rdiv_lt_0_compat; lra.
      - apply (Rmult_le_reg_r (B2R d)); [lra|]. unfold Rdiv. rewrite Rmult_assoc, Rinv_l by lra. lra. }
    assert (0 <= rnd (1 / B2R d) <= 1).
    { split; [apply rnd_ge_format; [apply format_0|lra]|apply rnd_le_format; [apply format_1|lra]]. }
    destruct (fdiv_correct f1 d) as [E F]; auto; try (rewrite f1_R); try lra.
    + rewrite Rabs_pos_eq by lra. assert (K := bpow128_gt1). lra.
    + rewrite F, E, f1_R. split; auto.
Qed.

Lemma unit_R (v : f32) : is_finite v = true -> 0 <= B2R v <= 1 -> in_unit v.
Proof.
  intros F H. split; apply fle_R; auto; try apply f1_finite; try rewrite f1_R; try rewrite f0_R; tauto.
Qed.

Lemma unit_R_inv (v : f32) : in_unit v -> is_finite v = true /\ 0 <= B2R v <= 1.
Proof.
  intros [H1 H2].
  assert (F : is_finite v = true).
  { destruct v as [|[|]| |]; auto; discriminate. }
  split; auto. apply fle_R in H1, H2; auto; try apply f1_finite.
  rewrite f1_R in H2. rewrite f0_R in H1. auto.
Qed.

Lemma logistic_unit mx v : exp_ok mx -> fis_nan v = false -> in_unit (logistic mx v).
Proof.
  intros X N. unfold logistic.
  assert (E : fle f0 (mx_exp mx (fneg v)) = true).
  { apply X. unfold fneg. destruct v; auto. }
  apply one_plus, one_over in E. destruct E. apply unit_R; auto.
Qed.

Lemma complement_unit v : in_unit v -> in_unit (fsub f1 v).
Proof.
  intros H. apply unit_R_inv in H as [F B].
  assert (C := Bminus_correct 24 128 _ _ mode_NE f1 v f1_finite F).
  simpl round_mode in C. fold (rnd (B2R f1 - B2R v)) in C. rewrite f1_R in C.
  assert (0 <= rnd (1 - B2R v) <= 1).
  { split; [apply rnd_ge_format; [apply format_0|lra]|apply rnd_le_format; [apply format_1|lra]]. }
  rewrite Rlt_bool_true in C.
  - destruct C as (C1 & C2 & _). apply unit_R; unfold fsub; [exact C2|rewrite C1; auto].
  - rewrite Rabs_pos_eq by lra. assert (K := bpow128_gt1). lra.
Qed.

(** NaN in, NaN out. *)
Lemma unit_not_nan v : in_unit v -> fis_nan v = false.
Proof. intros [H _]. apply fle_not_nan in H. tauto. Qed.
