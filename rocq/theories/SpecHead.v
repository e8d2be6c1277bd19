(** * How far the distance of a planned path may be below the turn it has to make *)
From Coq Require Import Reals List.
From Verif Require Import Base ModelUtil ModelCircle SpecPath SpecTurn SpecPlan SpecWrap.
Open Scope R_scope.

(** A path of curvature at most [k] and length [L] turns by at most [k L]: up to the tolerances of the [n] pieces
    the headings of start and goal are not further apart than that. *)
Definition turns_enough (k s n g : R) (s1 s2 : State) (L : R) : Prop :=
  heading_within (k * sharp k s g * (L + n * g + n * epsilon * p_radius (hc_cc_param k s)) + n * epsilon) s1 s2.

(** The same for the spaces that accept states of any curvature. *)
Definition wrap_turns_enough (k s n g : R) (s1 s2 : State) (L : R) : Prop :=
  heading_within (k * sharp k s g * (L + length_gap k s) + (n + 2 * k) * epsilon) s1 s2.
