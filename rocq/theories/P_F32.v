(** Lemmas about binary32 arithmetic. *)
From Coq Require Import ZArith List Bool Lia Reals Lra Permutation Sorted.
From Flocq Require Import Core.Core IEEE754.BinarySingleNaN.
From Verif Require Import Base Sorting F32 P_Base.
Import ListNotations.
Open Scope R_scope.

(** Order of non-NaN floats as an order on reals: infinities are +/- 2^128. *)
Definition ext (x : f32) : R :=
  match x with
  | B754_infinity false => bpow radix2 128
  | B754_infinity true => - bpow radix2 128
  | _ => B2R x
  end.

Lemma ext_finite (x : f32) : is_finite x = true -> ext x = B2R x.
Proof. destruct x; simpl; try discriminate; auto. Qed.

Lemma B2R_bound (x : f32) : - bpow radix2 128 < B2R x < bpow radix2 128.
Proof.
  assert (H := abs_B2R_lt_emax 24 128 x).
  unfold Rabs in H. destruct (Rcase_abs (B2R x)); lra.
Qed.

Lemma bpow128_pos : 0 < bpow radix2 128.
Proof. apply bpow_gt_0. Qed.

Lemma compare_ext (x y : f32) :
  is_nan x = false -> is_nan y = false ->
  Bcompare x y = Some (Rcompare (ext x) (ext y)).
Proof.
  intros Nx Ny.
  assert (P := bpow128_pos).
  destruct (is_finite x) eqn:Fx, (is_finite y) eqn:Fy.
  - rewrite !ext_finite by auto. apply Bcompare_correct; auto.
  - assert (Hx := B2R_bound x). rewrite (ext_finite x) by auto.
    destruct y as [|[|]| |]; try discriminate; cbv beta iota delta [ext].
    + rewrite Rcompare_Gt by lra. destruct x as [[|]|[|]| |[|]]; try discriminate; reflexivity.
    + rewrite Rcompare_Lt by lra. destruct x as [[|]|[|]| |[|]]; try discriminate; reflexivity.
  - assert (Hy := B2R_bound y). rewrite (ext_finite y) by auto.
    destruct x as [|[|]| |]; try discriminate; cbv beta iota delta [ext].
    + rewrite Rcompare_Lt by lra. destruct y as [[|]|[|]| |[|]]; try discriminate; reflexivity.
    + rewrite Rcompare_Gt by lra. destruct y as [[|]|[|]| |[|]]; try discriminate; reflexivity.
  - destruct x as [|[|]| |]; try discriminate; destruct y as [|[|]| |]; try discriminate; cbv beta iota delta [ext].
    + rewrite Rcompare_Eq; auto.
    + rewrite Rcompare_Lt by lra; auto.
    + rewrite Rcompare_Gt by lra; auto.
    + rewrite Rcompare_Eq; auto.
Qed.

Lemma fle_ext (x y : f32) :
  is_nan x = false -> is_nan y = false -> (fle x y = true <-> ext x <= ext y).
Proof.
  intros Nx Ny. assert (H := compare_ext x y Nx Ny).
  unfold fle, Bleb, SpecFloat.SFleb. unfold Bcompare in H. rewrite H.
  destruct (Rcompare_spec (ext x) (ext y)); split; intros; try discriminate; auto; lra.
Qed.

Lemma flt_ext (x y : f32) :
  is_nan x = false -> is_nan y = false -> (flt x y = true <-> ext x < ext y).
Proof.
  intros Nx Ny. assert (H := compare_ext x y Nx Ny).
  unfold flt, Bltb, SpecFloat.SFltb. unfold Bcompare in H. rewrite H.
  destruct (Rcompare_spec (ext x) (ext y)); split; intros; try discriminate; auto; lra.
Qed.

Lemma fle_nan_l (x y : f32) : is_nan x = true -> fle x y = false.
Proof. destruct x; try discriminate; reflexivity. Qed.
Lemma fle_nan_r (x y : f32) : is_nan y = true -> fle x y = false.
Proof. destruct y; try discriminate; destruct x as [[|]|[|]| |[|]]; reflexivity. Qed.
Lemma flt_nan_l (x y : f32) : is_nan x = true -> flt x y = false.
Proof. destruct x; try discriminate; reflexivity. Qed.
Lemma flt_nan_r (x y : f32) : is_nan y = true -> flt x y = false.
Proof. destruct y; try discriminate; destruct x as [[|]|[|]| |[|]]; reflexivity. Qed.

Lemma fle_not_nan (x y : f32) : fle x y = true -> is_nan x = false /\ is_nan y = false.
Proof.
  intros H. split.
  - destruct (is_nan x) eqn:E; auto. rewrite (fle_nan_l x y E) in H. discriminate.
  - destruct (is_nan y) eqn:E; auto. rewrite (fle_nan_r x y E) in H. discriminate.
Qed.

Lemma flt_not_nan (x y : f32) : flt x y = true -> is_nan x = false /\ is_nan y = false.
Proof.
  intros H. split.
  - destruct (is_nan x) eqn:E; auto. rewrite (flt_nan_l x y E) in H. discriminate.
  - destruct (is_nan y) eqn:E; auto. rewrite (flt_nan_r x y E) in H. discriminate.
Qed.

Lemma fle_total (x y : f32) :
  is_nan x = false -> is_nan y = false -> fle x y = true \/ fle y x = true.
Proof. intros. rewrite !fle_ext by auto. lra. Qed.

Lemma fle_trans (x y z : f32) : fle x y = true -> fle y z = true -> fle x z = true.
Proof.
  intros H1 H2. destruct (fle_not_nan _ _ H1), (fle_not_nan _ _ H2).
  rewrite fle_ext in * by auto. lra.
Qed.

Lemma fle_refl (x : f32) : is_nan x = false -> fle x x = true.
Proof. intros. rewrite fle_ext by auto. lra. Qed.

Lemma fle_flt_neg (x y : f32) :
  is_nan x = false -> is_nan y = false -> (fle x y = true <-> flt y x = false).
Proof.
  intros. rewrite fle_ext by auto.
  destruct (flt y x) eqn:E.
  - apply flt_ext in E; auto. split; intros; [lra|discriminate].
  - split; auto. intros _. destruct (Rle_or_lt (ext x) (ext y)) as [L|L]; auto.
    apply flt_ext in L; auto. congruence.
Qed.

Lemma flt_fle (x y : f32) : flt x y = true -> fle x y = true.
Proof.
  intros H. destruct (flt_not_nan _ _ H). rewrite fle_ext by auto. rewrite flt_ext in H by auto. lra.
Qed.

(** ** Sorting by descending score *)
Lemma sort_desc_ok {A} (score : A -> f32) l r :
  sort_desc score l = Ok r ->
  Permutation l r /\
  ((2 <= length l)%nat -> Forall (fun a => is_nan (score a) = false) l) /\
  StronglySorted (fun a b => fle (score b) (score a) = true) r.
Proof.
  unfold sort_desc. intros H.
  destruct ((2 <=? length l)%nat && existsb (fun a => fis_nan (score a)) l) eqn:E; try discriminate.
  inv H. split; [apply isort_perm|].
  destruct (2 <=? length l)%nat eqn:L; simpl in E.
  - assert (F : Forall (fun a => is_nan (score a) = false) l).
    { apply Forall_forall. intros x Hx. destruct (is_nan (score x)) eqn:N; auto.
      rewrite <- E. symmetry. apply existsb_exists. exists x. auto. }
    split; auto.
    apply isort_sorted with (P := fun a => is_nan (score a) = false); auto.
    + intros a b Ha Hb. apply fle_total; auto.
    + intros a b c _ _ _ H1 H2. eapply fle_trans; eauto.
  - apply Nat.leb_gt in L. split; [lia|].
    destruct l as [|a [|b l]]; simpl in *; try lia; repeat constructor.
Qed.

Lemma sort_desc_no_nan {A} (score : A -> f32) l :
  Forall (fun a => is_nan (score a) = false) l ->
  sort_desc score l = Ok (isort (fun a b => fle (score b) (score a)) l).
Proof.
  intros F. unfold sort_desc.
  replace (existsb (fun a => fis_nan (score a)) l) with false.
  - rewrite andb_false_r. reflexivity.
  - symmetry. induction F; simpl; auto. unfold fis_nan at 1. rewrite H. exact IHF.
Qed.

Lemma sort_desc_not_err {A} (score : A -> f32) l e : sort_desc score l <> Err e.
Proof. unfold sort_desc. destruct (_ && _); discriminate. Qed.

Lemma sort_desc_In {A} (score : A -> f32) l r x :
  sort_desc score l = Ok r -> (In x r <-> In x l).
Proof.
  intros H. apply sort_desc_ok in H as (P & _ & _).
  split; apply Permutation_in; auto using Permutation_sym.
Qed.

(** ** Rounding *)
Notation fexp32 := (SpecFloat.fexp 24 128).
Definition rnd (x : R) : R := round radix2 fexp32 ZnearestE x.
Definition format (x : R) : Prop := generic_format radix2 fexp32 x.

#[global] Instance fexp32_valid : Valid_exp fexp32.
Proof. apply (fexp_correct 24 128). reflexivity. Qed.

#[global] Instance fexp32_mono : Monotone_exp fexp32.
Proof. apply (fexp_monotone 24 128). Qed.

Lemma rnd_le x y : x <= y -> rnd x <= rnd y.
Proof. intros. apply round_le; auto with typeclass_instances. Qed.

Lemma rnd_format x : format x -> rnd x = x.
Proof. intros. apply round_generic; auto with typeclass_instances. Qed.

Lemma format_rnd x : format (rnd x).
Proof. apply generic_format_round; auto with typeclass_instances. Qed.

Lemma format_B2R (x : f32) : format (B2R x).
Proof. apply (generic_format_B2R 24 128). Qed.

Lemma rnd_le_format x y : format y -> x <= y -> rnd x <= y.
Proof. intros F H. rewrite <- (rnd_format y F). apply rnd_le. exact H. Qed.

Lemma rnd_ge_format x y : format y -> y <= x -> y <= rnd x.
Proof. intros F H. rewrite <- (rnd_format y F). apply rnd_le. exact H. Qed.

Lemma format_bpow e : (-149 <= e)%Z -> format (bpow radix2 e).
Proof.
  intros H. apply generic_format_bpow. unfold SpecFloat.fexp, SpecFloat.emin. lia.
Qed.

Lemma format_FLT x : FLT_format radix2 (-149) 24 x -> format x.
Proof. intros H. apply generic_format_FLT in H. exact H. Qed.

(** Integers below 2^24 in absolute value are representable. *)
Lemma format_IZR z : (Z.abs z <= 2 ^ 24)%Z -> format (IZR z).
Proof.
  intros H. destruct (Z.eq_dec (Z.abs z) (2 ^ 24)) as [E|E].
  - destruct (Z_le_gt_dec 0 z).
    + rewrite Z.abs_eq in E by lia. subst z.
      change (IZR (2 ^ 24)) with (bpow radix2 24). apply format_bpow. lia.
    + rewrite Z.abs_neq in E by lia. replace z with (- 2 ^ 24)%Z by lia.
      rewrite opp_IZR. apply generic_format_opp.
      change (IZR (2 ^ 24)) with (bpow radix2 24). apply format_bpow. lia.
  - apply format_FLT. exists (Float radix2 z 0); simpl.
    + unfold F2R. simpl. lra.
    + lia.
    + lia.
Qed.

Lemma rnd_0 : rnd 0 = 0.
Proof. apply round_0. auto with typeclass_instances. Qed.

(** ** Operations on finite floats *)
Lemma fadd_correct (x y : f32) :
  is_finite x = true -> is_finite y = true ->
  Rabs (rnd (B2R x + B2R y)) < bpow radix2 128 ->
  B2R (fadd x y) = rnd (B2R x + B2R y) /\ is_finite (fadd x y) = true.
Proof.
  intros Fx Fy H. assert (C := Bplus_correct 24 128 _ _ mode_NE x y Fx Fy).
  simpl round_mode in C. fold (rnd (B2R x + B2R y)) in C.
  rewrite Rlt_bool_true in C by exact H. intuition.
Qed.

Lemma fdiv_correct (x y : f32) :
  is_finite x = true -> B2R y <> 0 ->
  Rabs (rnd (B2R x / B2R y)) < bpow radix2 128 ->
  B2R (fdiv x y) = rnd (B2R x / B2R y) /\ is_finite (fdiv x y) = true.
Proof.
  intros Fx Hy H. assert (C := Bdiv_correct 24 128 _ _ mode_NE x y Hy).
  simpl round_mode in C. fold (rnd (B2R x / B2R y)) in C.
  rewrite Rlt_bool_true in C by exact H. destruct C as (C1 & C2 & _).
  split; auto. unfold fdiv. rewrite C2. exact Fx.
Qed.

Lemma fmul_correct (x y : f32) :
  is_finite x = true -> is_finite y = true ->
  Rabs (rnd (B2R x * B2R y)) < bpow radix2 128 ->
  B2R (fmul x y) = rnd (B2R x * B2R y) /\ is_finite (fmul x y) = true.
Proof.
  intros Fx Fy H. assert (C := Bmult_correct 24 128 _ _ mode_NE x y).
  simpl round_mode in C. fold (rnd (B2R x * B2R y)) in C.
  rewrite Rlt_bool_true in C by exact H. destruct C as (C1 & C2 & _).
  split; auto. unfold fmul. rewrite C2, Fx, Fy. reflexivity.
Qed.

Lemma of_Z_correct z :
  Rabs (rnd (IZR z)) < bpow radix2 128 ->
  B2R (f32_of_Z z) = rnd (IZR z) /\ is_finite (f32_of_Z z) = true.
Proof.
  intros H. assert (C := binary_normalize_correct 24 128 _ _ mode_NE z 0 false).
  cbv zeta in C. simpl round_mode in C.
  replace (F2R (Float radix2 z 0)) with (IZR z) in C by (unfold F2R; simpl; lra).
  fold (rnd (IZR z)) in C. rewrite Rlt_bool_true in C by exact H. intuition.
Qed.

Lemma f1_R : B2R f1 = 1.
Proof.
  unfold f1. destruct (of_Z_correct 1) as [H _].
  - rewrite (rnd_format 1). + rewrite Rabs_R1. apply (bpow_lt radix2 0 128). lia.
    + change 1 with (IZR 1). apply format_IZR. lia.
  - rewrite H. apply rnd_format. change 1 with (IZR 1). apply format_IZR. lia.
Qed.

Lemma f1_finite : is_finite f1 = true.
Proof. reflexivity. Qed.

Lemma fhalf_R : B2R fhalf = / 2.
Proof. unfold fhalf. cbv -[Rmult Rinv IZR]. lra. Qed.

Lemma fhalf_finite : is_finite fhalf = true.
Proof. reflexivity. Qed.

Lemma f0_R : B2R f0 = 0.
Proof. reflexivity. Qed.

Lemma finite_not_nan (x : f32) : is_finite x = true -> is_nan x = false.
Proof. destruct x; simpl; congruence. Qed.

Lemma fle_R (x y : f32) :
  is_finite x = true -> is_finite y = true -> (fle x y = true <-> B2R x <= B2R y).
Proof.
  intros Fx Fy. rewrite fle_ext by auto using finite_not_nan.
  rewrite !ext_finite by auto. tauto.
Qed.

Lemma flt_R (x y : f32) :
  is_finite x = true -> is_finite y = true -> (flt x y = true <-> B2R x < B2R y).
Proof.
  intros Fx Fy. rewrite flt_ext by auto using finite_not_nan.
  rewrite !ext_finite by auto. tauto.
Qed.

Lemma fle_R_false (x y : f32) :
  is_finite x = true -> is_finite y = true -> (fle x y = false <-> B2R y < B2R x).
Proof.
  intros Fx Fy. destruct (fle x y) eqn:E.
  - apply fle_R in E; auto. split; [discriminate|lra].
  - split; auto. intros _. destruct (Rle_or_lt (B2R x) (B2R y)) as [L|L]; auto.
    apply fle_R in L; auto. congruence.
Qed.
