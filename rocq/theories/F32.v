(** Rust's [f32]: IEEE-754 binary32 as formalised by Flocq, with a single NaN,
    rounding to nearest, ties to even. *)
From Coq Require Import ZArith List Bool.
From Flocq Require Import Core.Core IEEE754.BinarySingleNaN.
From Verif Require Import Base Sorting.
Import ListNotations.

Definition f32 : Set := binary_float 24 128.

#[global] Instance Hprec24 : Prec_gt_0 24 := eq_refl.
#[global] Instance Hmax24 : Prec_lt_emax 24 128 := eq_refl.

(** [n as f32]: rounded to nearest. *)
Definition f32_of_Z (z : Z) : f32 := binary_normalize 24 128 _ _ mode_NE z 0 false.
Definition f32_of_nat (n : nat) : f32 := f32_of_Z (Z.of_nat n).

Definition f0 : f32 := B754_zero false.
Definition f1 : f32 := f32_of_Z 1.
Definition fhalf : f32 := binary_normalize 24 128 _ _ mode_NE 1 (-1) false.

Definition fadd : f32 -> f32 -> f32 := Bplus mode_NE.
Definition fsub : f32 -> f32 -> f32 := Bminus mode_NE.
Definition fmul : f32 -> f32 -> f32 := Bmult mode_NE.
Definition fdiv : f32 -> f32 -> f32 := Bdiv mode_NE.
Definition fsqrt : f32 -> f32 := Bsqrt mode_NE.
Definition fneg : f32 -> f32 := Bopp.

(** Comparison operators: all false on NaN. *)
Definition fle : f32 -> f32 -> bool := Bleb.
Definition flt : f32 -> f32 -> bool := Bltb.
Definition feq : f32 -> f32 -> bool := Beqb.
Definition fis_nan : f32 -> bool := is_nan.

(** [iter.sum::<f32>()] *)
Definition fsum (l : list f32) : f32 := fold_left fadd l f0.

(** [sorted_by(|a, b| score(b).partial_cmp(&score(a)).unwrap())]: descending and
    stable.  With at least two elements a comparison sort compares every element
    at least once, so a NaN score makes [unwrap] panic. *)
Definition sort_desc {A} (score : A -> f32) (l : list A) : outcome (list A) :=
  if (2 <=? length l)%nat && existsb (fun a => fis_nan (score a)) l then Panic
  else Ok (isort (fun a b => fle (score b) (score a)) l).
