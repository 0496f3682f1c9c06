(** Counting in binary32 is exact up to 2^24. *)
From Coq Require Import ZArith List Bool Lia Reals Lra Arith.
From Flocq Require Import Core.Core IEEE754.BinarySingleNaN.
From Verif Require Import Base Sorting F32 P_Base P_F32.
Import ListNotations.
Open Scope R_scope.

Lemma bpow24_128 : IZR (2 ^ 24) < bpow radix2 128.
Proof. change (IZR (2 ^ 24)) with (bpow radix2 24). apply bpow_lt. lia. Qed.

Lemma of_nat_exact n : (Z.of_nat n <= 2 ^ 24)%Z ->
  B2R (f32_of_nat n) = IZR (Z.of_nat n) /\ is_finite (f32_of_nat n) = true /\ Bsign (f32_of_nat n) = false.
Proof.
  intros H. unfold f32_of_nat.
  assert (F : format (IZR (Z.of_nat n))) by (apply format_IZR; lia).
  assert (P : 0 <= IZR (Z.of_nat n)) by (apply IZR_le; lia).
  assert (U : IZR (Z.of_nat n) < bpow radix2 128).
  { apply Rle_lt_trans with (IZR (2 ^ 24)); [apply IZR_le; lia|apply bpow24_128]. }
  assert (C := binary_normalize_correct 24 128 _ _ mode_NE (Z.of_nat n) 0 false).
  cbv zeta in C. simpl round_mode in C.
  replace (F2R (Float radix2 (Z.of_nat n) 0)) with (IZR (Z.of_nat n)) in C by (unfold F2R; simpl; lra).
  fold (rnd (IZR (Z.of_nat n))) in C. rewrite (rnd_format _ F) in C.
  rewrite Rlt_bool_true in C by (rewrite Rabs_pos_eq; lra).
  destruct C as (C1 & C2 & C3). unfold f32_of_Z. rewrite C1, C2, C3. repeat split; auto.
  destruct (Rcompare_spec (IZR (Z.of_nat n)) 0); auto; lra.
Qed.

Lemma succ_exact n : (Z.of_nat (S n) <= 2 ^ 24)%Z -> fadd (f32_of_nat n) f1 = f32_of_nat (S n).
Proof.
  intros H.
  destruct (of_nat_exact n) as (A1 & A2 & A3); [lia|].
  destruct (of_nat_exact (S n)) as (B1 & B2 & B3); [lia|].
  assert (F : format (IZR (Z.of_nat (S n)))) by (apply format_IZR; lia).
  assert (P : 0 < IZR (Z.of_nat (S n))) by (apply IZR_lt; lia).
  assert (U : IZR (Z.of_nat (S n)) < bpow radix2 128).
  { apply Rle_lt_trans with (IZR (2 ^ 24)); [apply IZR_le; lia|apply bpow24_128]. }
  assert (C := Bplus_correct 24 128 _ _ mode_NE (f32_of_nat n) f1 A2 f1_finite).
  simpl round_mode in C. fold (rnd (B2R (f32_of_nat n) + B2R f1)) in C.
  rewrite A1, f1_R in C.
  replace (IZR (Z.of_nat n) + 1) with (IZR (Z.of_nat (S n))) in C
    by (rewrite Nat2Z.inj_succ, succ_IZR; reflexivity).
  rewrite (rnd_format _ F) in C.
  rewrite Rlt_bool_true in C by (rewrite Rabs_pos_eq; lra).
  destruct C as (C1 & C2 & C3).
  apply B2R_Bsign_inj; auto.
  - unfold fadd. rewrite C1, B1. reflexivity.
  - unfold fadd. rewrite C3, B3. rewrite Rcompare_Gt by lra. reflexivity.
Qed.

Lemma bump_exact n : (Z.of_nat n <= 2 ^ 24)%Z -> Nat.iter n (fun c => fadd c f1) f0 = f32_of_nat n.
Proof.
  induction n; intros H.
  - reflexivity.
  - change (Nat.iter (S n) (fun c => fadd c f1) f0) with (fadd (Nat.iter n (fun c => fadd c f1) f0) f1).
    rewrite IHn by lia. apply succ_exact. exact H.
Qed.
