(** * Paths of four turns

    The shape CCCC of the paths of the CC Dubins planner between states of the curvature of the bound. *)
From Coq Require Import Reals ZArith List.
From Verif Require Import Base ModelUtil ModelCircle Num SpecPath SpecTurn SpecSide SpecOpt SpecCusp SpecLong.
Import ListNotations.
Open Scope R_scope.

Section Four.
  Variables (k s : R).

  (** The angle that a turn with curvature 0 at both ends sweeps, seen from the centre of its circle. *)
  Definition swept (a : R) : R := turn_angle k s true true a + 2 * p_mu (hc_cc_param k s).

  (** Four turns to alternating sides. The two turns in the middle sweep a full circle together, so that the centres of the four
      circles are the corners of an isosceles trapezoid; and if the first and the last circle are closer to each other than those
      of the middle turns, then the sides of the trapezoid cross, which is the one of the two cases that the planner considers. *)
  Inductive four_shape (z1 z2 left forward : bool) : list Control -> Prop :=
  | CCCC a1 m1 m2 a2 : 0 <= a1 -> 0 <= m1 -> 0 <= m2 -> 0 <= a2 -> ang_eq (swept m1 + swept m2) 0 ->
      cos (swept m1) <= 0 \/ 1 / 2 < cos (swept m1) < 1 ->
      four_shape z1 z2 left forward
        (turn k s z1 true left forward a1 ++ turn k s true true (negb left) forward m1 ++ turn k s true true left forward m2 ++
         turn k s true z2 (negb left) forward a2).
End Four.
