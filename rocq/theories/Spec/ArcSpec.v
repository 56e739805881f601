(** Specification vocabulary: what is asked of math.Acos to rank by angles. *)
From Verif.Base Require Import GoBase Float.
From Verif.Model Require Import Vector.
From Verif.Spec Require Import VectorSpec AccuracySpec.
Open Scope Z_scope.

(** The arc cosine falls by at least as much as its argument grows.  math.Acos does so up to
    2^-40 (its error is below 2^-49). *)
Definition acos_steep (M : mathlib) : Prop :=
  forall x y, is_float64 x -> is_float64 y ->
  within (f64_of_Z (-1)) (f64_of_Z 1) x -> within (f64_of_Z (-1)) (f64_of_Z 1) y -> SFleb y x = true ->
  value (-1074) x - value (-1074) y <= value (-1074) (acos M y) - value (-1074) (acos M x) + 2 ^ (1074 - 40).
