(** * Vocabulary for the Dubins planner in double precision *)
From Coq Require Import Reals ZArith List.
From Verif Require Import Base ModelUtil SpecPath ModelDubins ModelFloat SpecArc.
Import ListNotations.
Open Scope R_scope.

(** What is assumed of atan2 of the C library: the direction of the vector up to a relative error of 2^-50. Nothing is
    assumed of the representation of the angle modulo 2 pi, nor of the value for the zero vector. *)
Definition accurate_atan2 (f : R -> R -> R) : Prop := forall y x, binary64 y -> binary64 x ->
  binary64 (f y x) /\ Rabs (f y x) <= 4 /\
  Rabs (sqrt (x * x + y * y) * cos (f y x) - x) <= sqrt (x * x + y * y) / 2 ^ 50 /\
  Rabs (sqrt (x * x + y * y) * sin (f y x) - y) <= sqrt (x * x + y * y) / 2 ^ 50.

(** What is assumed of acos. *)
Definition accurate_acos (f : R -> R) : Prop := forall x, binary64 x -> Rabs x < 1 ->
  binary64 (f x) /\ Rabs (f x - acos x) <= / 2 ^ 51.

(** The library of the C functions. *)
Definition accurate_library (sin64 cos64 acos64 : R -> R) (atan264 : R -> R -> R) : Prop :=
  accurate64 sin sin64 /\ accurate64 cos cos64 /\ accurate_acos acos64 /\ accurate_atan2 atan264.

(** A curvature of a usual size. *)
Definition usual_kappa (kappa : R) : Prop := binary64 kappa /\ 1 / 100 <= kappa <= 10.
