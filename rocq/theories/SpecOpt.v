(** * Paths of the shapes CSC and CCC

    A turn (C) raises the curvature from 0 to the bound with the full sharpness, keeps it and lowers it again; S is a
    straight line. At an end where the state has the curvature of the bound, the turn starts or ends with the arc. *)
From Coq Require Import Reals ZArith List.
From Verif Require Import Base ModelUtil ModelCircle SpecPath SpecTurn SpecSide.
Import ListNotations.
Open Scope R_scope.

Section Words.
  Variables (k s : R).

  (** Clothoid from curvature 0 to the bound, arc of length [a], clothoid back to curvature 0. *)
  Definition steer (left forward : bool) : Control := mkControl (sign forward * (k / s)) 0 (sign left * s).
  Definition arc (left forward : bool) (a : R) : Control := mkControl (sign forward * a) (sign left * k) 0.
  Definition unsteer (left forward : bool) : Control := mkControl (sign forward * (k / s)) (sign left * k) (- (sign left * s)).
  Definition line (forward : bool) (t : R) : Control := mkControl (sign forward * t) 0 0.

  (** Turns; [z] says whether the curvature is 0 at the end of the path. *)
  Definition first_turn (z left forward : bool) (a : R) : list Control :=
    (if z then [steer left forward] else []) ++ [arc left forward a; unsteer left forward].
  Definition last_turn (z left forward : bool) (a : R) : list Control :=
    [steer left forward; arc left forward a] ++ (if z then [unsteer left forward] else []).

  Definition csc (z1 z2 l1 l2 forward : bool) (a1 t a2 : R) : list Control :=
    first_turn z1 l1 forward a1 ++ [line forward t] ++ last_turn z2 l2 forward a2.
  Definition ccc (z1 z2 left forward : bool) (a1 a2 a3 : R) : list Control :=
    first_turn z1 left forward a1 ++ first_turn true (negb left) forward a2 ++ last_turn z2 left forward a3.

  (** [cs] is a path of one of these shapes in the given driving direction, whose turns at the ends are on the given sides. *)
  Inductive dubins_shape (z1 z2 forward : bool) : bool -> bool -> list Control -> Prop :=
  | shape_csc l1 l2 a1 t a2 : 0 <= a1 -> 0 <= t -> 0 <= a2 -> dubins_shape z1 z2 forward l1 l2 (csc z1 z2 l1 l2 forward a1 t a2)
  | shape_ccc left a1 a2 a3 : 0 <= a1 -> 0 <= a2 -> 0 <= a3 -> dubins_shape z1 z2 forward left left (ccc z1 z2 left forward a1 a2 a3).
End Words.

(** The centres around which one turn to the given side can lead from [s1] to [s2] are apart, which rules out that the
    library takes the goal for the end of such a turn because of its tolerance. *)
Definition no_turn_00 (k s : R) (left forward : bool) (s1 s2 : State) : Prop :=
  epsilon * (1 + p_radius (hc_cc_param k s)) < gap (turn_centre k s left forward s1) (turn_centre k s left (negb forward) s2).
Definition no_turn_0pm (k s : R) (left left' forward : bool) (s1 s2 : State) : Prop :=
  epsilon <= gap (turn_centre k s left forward s1) (arc_centre k left' s2).
Definition no_turn_pm0 (k s : R) (left left' forward : bool) (s1 s2 : State) : Prop :=
  epsilon <= gap (arc_centre k left s1) (turn_centre k s left' (negb forward) s2).
Definition no_turn_pmpm (k : R) (left : bool) (s1 s2 : State) : Prop :=
  epsilon * (1 + 1 / k) < gap (arc_centre k left s1) (arc_centre k left s2).

(** The side of the arc through a state of the curvature of the bound. *)
Definition on_side (left : bool) (q : State) : Prop := (0 < st_kappa q -> left = true) /\ (st_kappa q < 0 -> left = false).
