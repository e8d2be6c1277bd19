(** * Property C63: no path with cusps to the goal is shorter than the distance of the planner *)
From Coq Require Import Reals ZArith List.
From Verif Require Import Base ModelUtil ModelCircle SpecPath SpecTurn SpecSide SpecOpt SpecCusp OptCases CuspCases.
From Verif Require ModelCC00R ModelHC00R ModelHC0pmR ModelHCpm0R ModelHCpmpmR.
From Verif Require CuspCC00R CuspHC00R CuspHC0pmR CuspHCpm0R CuspHCpmpmR.
Open Scope R_scope.

(** C63. Let [cs] be a path from [s1] of one of the shapes C|C, C|C|C, C|CC, CC|C, C|SC, CS|C and C|S|C, built from clothoids
    of full sharpness, arcs of full curvature and straight lines, which ends in [s2] according to the library's own motion. Then
    the Reeds-Shepp planners answer with a distance that is not longer than [cs] or than the straight line, which they take for
    aligned states. At the cusps the curvature is 0 for the planner CC00 and jumps between the bounds for the planners HC.
    Excluded are goals that the library takes, up to its tolerance, for the end of a single turn, and coinciding circles of the
    first and the last turn. *)

Theorem C63_cc00_reeds_shepp (k s : R) (left1 forward1 left2 forward2 : bool) (s1 s2 : State) (cs : list Control) :
  0 < k -> 0 < s -> epsilon < k / s -> Rmax (total_length cs) (pos_dist s1 s2) < DBL_MAX ->
  no_turn_00 k s left1 forward1 s1 s2 -> apart_00 k s left1 forward1 left2 forward2 s1 s2 ->
  cusp_shape k s true true true left1 forward1 left2 forward2 cs -> same_pose (lib_path s1 cs) s2 ->
  exists D, ModelCC00R.get_distance k s s1 s2 = Some (Some D) /\ D <= Rmax (total_length cs) (pos_dist s1 s2).
Proof. exact (CuspCC00R.cc00_reeds_shepp_cusp k s s1 s2 left1 forward1 left2 forward2 cs). Qed.
Print Assumptions C63_cc00_reeds_shepp.

Theorem C63_hc00_reeds_shepp (k s : R) (left1 forward1 left2 forward2 : bool) (s1 s2 : State) (cs : list Control) :
  0 < k -> 0 < s -> epsilon < k / s -> Rmax (total_length cs) (pos_dist s1 s2) < DBL_MAX ->
  no_turn_00 k s left1 forward1 s1 s2 -> apart_00 k s left1 forward1 left2 forward2 s1 s2 ->
  cusp_shape k s false true true left1 forward1 left2 forward2 cs -> same_pose (lib_path s1 cs) s2 ->
  exists D, ModelHC00R.get_distance k s s1 s2 = Some (Some D) /\ D <= Rmax (total_length cs) (pos_dist s1 s2).
Proof. exact (CuspHC00R.hc00_reeds_shepp_cusp k s s1 s2 left1 forward1 left2 forward2 cs). Qed.
Print Assumptions C63_hc00_reeds_shepp.

Theorem C63_hc0pm_reeds_shepp (k s : R) (left1 forward1 left2 forward2 : bool) (s1 s2 : State) (cs : list Control) :
  0 < k -> 0 < s -> epsilon < k / s -> Rmax (total_length cs) (pos_dist s1 s2) < DBL_MAX ->
  no_turn_0pm k s left1 left2 forward1 s1 s2 -> on_side left2 s2 ->
  cusp_shape k s false true false left1 forward1 left2 forward2 cs -> same_pose (lib_path s1 cs) s2 ->
  exists D, ModelHC0pmR.get_distance k s s1 s2 = Some (Some D) /\ D <= Rmax (total_length cs) (pos_dist s1 s2).
Proof. exact (CuspHC0pmR.hc0pm_reeds_shepp_cusp k s s1 s2 left1 forward1 left2 forward2 cs). Qed.
Print Assumptions C63_hc0pm_reeds_shepp.

Theorem C63_hcpm0_reeds_shepp (k s : R) (left1 forward1 left2 forward2 : bool) (s1 s2 : State) (cs : list Control) :
  0 < k -> 0 < s -> epsilon < k / s -> Rmax (total_length cs) (pos_dist s1 s2) < DBL_MAX ->
  no_turn_pm0 k s left1 left2 forward2 s1 s2 -> on_side left1 s1 ->
  cusp_shape k s false false true left1 forward1 left2 forward2 cs -> same_pose (lib_path s1 cs) s2 ->
  exists D, ModelHCpm0R.get_distance k s s1 s2 = Some (Some D) /\ D <= Rmax (total_length cs) (pos_dist s1 s2).
Proof. exact (CuspHCpm0R.hcpm0_reeds_shepp_cusp k s s1 s2 left1 forward1 left2 forward2 cs). Qed.
Print Assumptions C63_hcpm0_reeds_shepp.

Theorem C63_hcpmpm_reeds_shepp (k s : R) (left1 forward1 left2 forward2 : bool) (s1 s2 : State) (cs : list Control) :
  0 < k -> 0 < s -> epsilon < k / s -> Rmax (total_length cs) (pos_dist s1 s2) < DBL_MAX ->
  no_turn_pmpm k left1 s1 s2 -> on_side left1 s1 -> on_side left2 s2 ->
  cusp_shape k s false false false left1 forward1 left2 forward2 cs -> same_pose (lib_path s1 cs) s2 ->
  exists D, ModelHCpmpmR.get_distance k s s1 s2 = Some (Some D) /\ D <= Rmax (total_length cs) (pos_dist s1 s2).
Proof. exact (CuspHCpmpmR.hcpmpm_reeds_shepp_cusp k s s1 s2 left1 forward1 left2 forward2 cs). Qed.
Print Assumptions C63_hcpmpm_reeds_shepp.

(** A turn to the left, a cusp, a straight line of length 100, a cusp and a turn to the left, in either direction and for each
    combination of curvatures at the ends and at the cusps. *)
Example C63_case (forward : bool) :
  (forall zc z1 z2, Rmax (total_length (cusp_word zc z1 z2 forward)) (pos_dist (case_start z1) (cusp_goal zc z1 z2 forward)) < DBL_MAX /\
     cusp_shape 1 1 zc z1 z2 true forward true forward (cusp_word zc z1 z2 forward) /\ same_pose (lib_path (case_start z1) (cusp_word zc z1 z2 forward)) (cusp_goal zc z1 z2 forward)) /\
  (forall zc, no_turn_00 1 1 true forward (case_start true) (cusp_goal zc true true forward) /\ apart_00 1 1 true forward true forward (case_start true) (cusp_goal zc true true forward)) /\
  no_turn_0pm 1 1 true true forward (case_start true) (cusp_goal false true false forward) /\ (forall z1, on_side true (cusp_goal false z1 false forward)) /\
  no_turn_pm0 1 1 true true forward (case_start false) (cusp_goal false false true forward) /\ on_side true (case_start false) /\
  no_turn_pmpm 1 true (case_start false) (cusp_goal false false false forward).
Proof.
  exact (conj (fun zc z1 z2 => conj (cusp_bound zc z1 z2 forward) (cusp_shape_case zc z1 z2 forward)) (conj (fun zc => cusp_00 zc forward) (conj (cusp_0pm forward) (conj (fun z1 => cusp_side2 false z1 forward)
    (conj (cusp_pm0 forward) (conj case_side1 (cusp_pmpm forward))))))).
Qed.
