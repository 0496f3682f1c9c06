(** Fewer slots give a strictly greater weight. *)
From Coq Require Import List ZArith Bool Lia Reals Lra Arith.
From Flocq Require Import Core.Core Relative IEEE754.BinarySingleNaN.
From Verif Require Import Base F32 M_Types S_Rank P_Base P_F32 P_Rank.
Import ListNotations.
Open Scope R_scope.

Lemma weight_exact n : (Z.of_nat n < 2 ^ 22)%Z -> B2R (weight n) = rnd (/ IZR (Z.of_nat n + 1)).
Proof.
  intros H. assert (F : fitting n) by (unfold fitting; lia). destruct (weight_R n F) as (_ & _ & ->).
  rewrite (rnd_format (IZR (Z.of_nat n))) by (apply format_IZR; lia).
  assert (E : 1 + IZR (Z.of_nat n) = IZR (Z.of_nat n + 1)) by (rewrite plus_IZR; lra).
  rewrite E, (rnd_format (IZR (Z.of_nat n + 1))) by (apply format_IZR; lia).
  f_equal. unfold Rdiv. apply Rmult_1_l.
Qed.

Lemma rnd_rel x : bpow radix2 (-126) <= Rabs x -> Rabs (rnd x - x) <= bpow radix2 (-24) * Rabs x.
Proof.
  intros H. pose proof (relative_error_N_FLT radix2 (-149) 24 (eq_refl : (0 < 24)%Z) (fun z => negb (Z.even z)) x) as E.
  change (-149 + 24 - 1)%Z with (-126)%Z in E. specialize (E H).
  change (round radix2 (FLT_exp (-149) 24) (Znearest (fun z => negb (Z.even z))) x) with (rnd x) in E.
  eapply Rle_trans; [exact E|]. apply Rmult_le_compat_r; [apply Rabs_pos|].
  change (/ 2) with (bpow radix2 (-1)). rewrite <- bpow_plus. apply bpow_le. lia.
Qed.

Lemma weight_strictly n m : (n < m)%nat -> (Z.of_nat m < 2 ^ 22)%Z -> B2R (weight m) < B2R (weight n).
Proof.
  intros L H. rewrite !weight_exact by lia.
  set (a := IZR (Z.of_nat n + 1)). set (b := IZR (Z.of_nat m + 1)).
  assert (A : 1 <= a) by (apply IZR_le; lia).
  assert (AB : a + 1 <= b) by (unfold a, b; rewrite <- plus_IZR; apply IZR_le; lia).
  assert (B : b <= IZR (2 ^ 22)) by (apply IZR_le; lia).
  assert (E24 : bpow radix2 (-24) = / IZR (2 ^ 24)) by reflexivity.
  assert (Pa : 0 < / a <= 1) by (split; [apply Rinv_0_lt_compat; lra|rewrite <- Rinv_1; apply Rinv_le; lra]).
  assert (Pb : 0 < / b) by (apply Rinv_0_lt_compat; lra).
  assert (Low : forall c, 1 <= c -> c <= IZR (2 ^ 22) -> bpow radix2 (-126) <= Rabs (/ c)).
  { intros c C1 C2. rewrite Rabs_pos_eq by (left; apply Rinv_0_lt_compat; lra).
    apply Rle_trans with (bpow radix2 (-22)); [apply bpow_le; lia|].
    change (bpow radix2 (-22)) with (/ IZR (2 ^ 22)). apply Rinv_le; lra. }
  assert (Ra := rnd_rel (/ a) (Low a ltac:(lra) ltac:(lra))). assert (Rb := rnd_rel (/ b) (Low b ltac:(lra) ltac:(lra))).
  rewrite (Rabs_pos_eq (/ b)) in Rb by lra.
  rewrite (Rabs_pos_eq (/ a)) in Ra by lra. rewrite E24 in *.
  apply Rabs_le_inv in Ra as []. apply Rabs_le_inv in Rb as [].
  assert (D : (/ a + / b) * / IZR (2 ^ 24) < / a - / b).
  { apply Rmult_lt_reg_r with (a * b * IZR (2 ^ 24)); [|].
    - apply Rmult_lt_0_compat; [apply Rmult_lt_0_compat; lra|]. apply IZR_lt. reflexivity.
    - replace ((/ a + / b) * / IZR (2 ^ 24) * (a * b * IZR (2 ^ 24))) with (a + b) by (field; repeat split; try lra; apply IZR_neq; discriminate).
      replace ((/ a - / b) * (a * b * IZR (2 ^ 24))) with ((b - a) * IZR (2 ^ 24)) by (field; lra).
      assert (IZR (2 ^ 24) = 4 * IZR (2 ^ 22)) by (rewrite <- mult_IZR; reflexivity).
      apply Rlt_le_trans with (1 * IZR (2 ^ 24)); [lra|]. apply Rmult_le_compat_r; [apply IZR_le; lia|lra]. }
  lra.
Qed.

Lemma weight_fewest n m : (Z.of_nat n < 2 ^ 22)%Z -> (Z.of_nat m < 2 ^ 22)%Z ->
  fle (weight n) (weight m) = true -> (m <= n)%nat.
Proof.
  intros Hn Hm L. destruct (le_lt_dec m n) as [|G]; auto. exfalso.
  assert (Fn : fitting n) by (unfold fitting; lia). assert (Fm : fitting m) by (unfold fitting; lia).
  apply fle_R in L; [|apply weight_R; auto|apply weight_R; auto].
  pose proof (weight_strictly n m G Hm). lra.
Qed.
