(** * States between which the planners of the curvature bound work as intended *)
From Coq Require Import Reals ZArith List.
From Verif Require Import Base ModelUtil ModelCircle SpecPath SpecTurn.
Open Scope R_scope.

(** The poses of two states differ by more than the library tolerance. *)
Definition poses_apart (s1 s2 : State) : Prop :=
  epsilon < pos_dist s1 s2 \/ epsilon < Rabs (twopify (st_theta s2) - twopify (st_theta s1)).

(** The point (lx, ly) of the frame of a state. *)
Definition beside (q : State) (lx ly : R) : R * R :=
  (st_x q + lx * cos (st_theta q) - ly * sin (st_theta q), st_y q + lx * sin (st_theta q) + ly * cos (st_theta q)).
Definition gap (a b : R * R) : R := sqrt ((fst b - fst a) ^ 2 + (snd b - snd a) ^ 2).

(** Centre of the turn that leaves the state [q] of zero curvature to the given side and in the given
    direction, and of the arc of curvature [k] through [q] on the given side. *)
Definition turn_centre (k s : R) (left forward : bool) (q : State) : R * R :=
  beside q (sign forward * (p_radius (hc_cc_param k s) * p_sin_mu (hc_cc_param k s)))
    (sign left * (p_radius (hc_cc_param k s) * p_cos_mu (hc_cc_param k s))).
Definition arc_centre (k : R) (left : bool) (q : State) : R * R := beside q 0 (sign left * (1 / k)).

(** No turn around a circle of [s1] is accepted for a goal circle on the other side. *)
Definition clear_0pm (k s : R) (s1 s2 : State) : Prop :=
  poses_apart s1 s2 /\
  forall left forward, epsilon <= gap (turn_centre k s left forward s1) (arc_centre k (negb left) s2).
Definition clear_pm0 (k s : R) (s1 s2 : State) : Prop :=
  poses_apart s1 s2 /\
  forall left forward, epsilon <= gap (arc_centre k (negb left) s1) (turn_centre k s left forward s2).
(** The curvatures have the same sign, or the goal does not lie on an arc through the start. *)
Definition clear_pmpm (k : R) (s1 s2 : State) : Prop :=
  poses_apart s1 s2 /\
  (0 < st_kappa s1 * st_kappa s2 \/
   forall left, epsilon < Rabs (gap (arc_centre k left s1) (st_x s2, st_y s2) - 1 / k)).
