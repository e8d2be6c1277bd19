(** * How far the distance of a planned path may be below the straight line *)
From Coq Require Import Reals List.
From Verif Require Import Base ModelUtil ModelCircle SpecPath SpecTurn SpecPlan SpecWrap.
Open Scope R_scope.

(** A path that misses the goal by at most [plan_error] and whose length differs from the distance by at most
    the tolerance of its [n] pieces. *)
Definition distance_error (k s n g : R) (cs : list Control) : R :=
  plan_error k s n g cs + n * g + n * epsilon * p_radius (hc_cc_param k s).

(** The distance [L] of a path of the controls [cs] is not below that of the positions. *)
Definition not_below (k s n g : R) (s1 s2 : State) (cs : list Control) (L : R) : Prop :=
  pos_dist s1 s2 <= L + distance_error k s n g cs.

(** The same for the spaces that accept states of any curvature. *)
Definition wrap_not_below (k s n g : R) (s1 s2 : State) (cs : list Control) (L : R) : Prop :=
  pos_dist s1 s2 <= L + wrap_error k s n g cs + length_gap k s.
