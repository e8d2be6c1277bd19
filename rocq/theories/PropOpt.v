(** * Property C59: no path CSC or CCC to the goal is shorter than the distance of the planner *)
From Coq Require Import Reals ZArith List.
From Verif Require Import Base ModelUtil ModelCircle SpecPath SpecTurn SpecSide SpecOpt OptCases.
From Verif Require ModelCC00D ModelCC0pmD ModelCCpm0D ModelCCpmpmD ModelCC00R ModelHC00R ModelHC0pmR ModelHCpm0R ModelHCpmpmR.
From Verif Require OptCC00D OptCC0pmD OptCCpm0D OptCCpmpmD OptCC00R OptHC00R OptHC0pmR OptHCpm0R OptHCpmpmR.
Open Scope R_scope.

(** C59. Let [cs] be a path of the shape CSC or CCC from [s1], built from clothoids of full sharpness, arcs of full
    curvature and straight lines, which ends in [s2] according to the library's own motion. Then the planner answers, and with
    a distance that is not longer than [cs]; this covers every sequence of sides and, for the Reeds-Shepp planners, both driving
    directions. The straight line between the states enters because the planners take it for aligned states; it is not longer
    than [cs] up to the error of the Fresnel integrals. Excluded are goals that the library takes, up to its tolerance, for the end of a single turn. *)

Theorem C59_cc00_dubins (k s : R) (forward left1 left2 : bool) (s1 s2 : State) (cs : list Control) :
  0 < k -> 0 < s -> epsilon < k / s -> Rmax (total_length cs) (pos_dist s1 s2) < DBL_MAX -> no_turn_00 k s left1 forward s1 s2 ->
  dubins_shape k s true true forward left1 left2 cs -> same_pose (lib_path s1 cs) s2 ->
  exists D, ModelCC00D.get_distance k s forward s1 s2 = Some (Some D) /\ D <= Rmax (total_length cs) (pos_dist s1 s2).
Proof. exact (OptCC00D.cc00_dubins_opt k s forward s1 s2 left1 left2 cs). Qed.
Print Assumptions C59_cc00_dubins.

Theorem C59_cc0pm_dubins (k s : R) (forward left1 left2 : bool) (s1 s2 : State) (cs : list Control) :
  0 < k -> 0 < s -> epsilon < k / s -> Rmax (total_length cs) (pos_dist s1 s2) < DBL_MAX -> no_turn_0pm k s left1 left2 forward s1 s2 -> on_side left2 s2 ->
  dubins_shape k s true false forward left1 left2 cs -> same_pose (lib_path s1 cs) s2 ->
  exists D, ModelCC0pmD.get_distance k s forward s1 s2 = Some (Some D) /\ D <= Rmax (total_length cs) (pos_dist s1 s2).
Proof. exact (OptCC0pmD.cc0pm_dubins_opt k s forward s1 s2 left1 left2 cs). Qed.
Print Assumptions C59_cc0pm_dubins.

Theorem C59_ccpm0_dubins (k s : R) (forward left1 left2 : bool) (s1 s2 : State) (cs : list Control) :
  0 < k -> 0 < s -> epsilon < k / s -> Rmax (total_length cs) (pos_dist s1 s2) < DBL_MAX -> no_turn_pm0 k s left1 left2 forward s1 s2 -> on_side left1 s1 ->
  dubins_shape k s false true forward left1 left2 cs -> same_pose (lib_path s1 cs) s2 ->
  exists D, ModelCCpm0D.get_distance k s forward s1 s2 = Some (Some D) /\ D <= Rmax (total_length cs) (pos_dist s1 s2).
Proof. exact (OptCCpm0D.ccpm0_dubins_opt k s forward s1 s2 left1 left2 cs). Qed.
Print Assumptions C59_ccpm0_dubins.

Theorem C59_ccpmpm_dubins (k s : R) (forward left1 left2 : bool) (s1 s2 : State) (cs : list Control) :
  0 < k -> 0 < s -> epsilon < k / s -> Rmax (total_length cs) (pos_dist s1 s2) < DBL_MAX -> no_turn_pmpm k left1 s1 s2 -> on_side left1 s1 -> on_side left2 s2 ->
  dubins_shape k s false false forward left1 left2 cs -> same_pose (lib_path s1 cs) s2 ->
  exists D, ModelCCpmpmD.get_distance k s forward s1 s2 = Some (Some D) /\ D <= Rmax (total_length cs) (pos_dist s1 s2).
Proof. exact (OptCCpmpmD.ccpmpm_dubins_opt k s forward s1 s2 left1 left2 cs). Qed.
Print Assumptions C59_ccpmpm_dubins.

Theorem C59_cc00_reeds_shepp (k s : R) (forward left1 left2 : bool) (s1 s2 : State) (cs : list Control) :
  0 < k -> 0 < s -> epsilon < k / s -> Rmax (total_length cs) (pos_dist s1 s2) < DBL_MAX -> no_turn_00 k s left1 forward s1 s2 ->
  dubins_shape k s true true forward left1 left2 cs -> same_pose (lib_path s1 cs) s2 ->
  exists D, ModelCC00R.get_distance k s s1 s2 = Some (Some D) /\ D <= Rmax (total_length cs) (pos_dist s1 s2).
Proof. exact (OptCC00R.cc00_reeds_shepp_opt k s s1 s2 left1 left2 forward cs). Qed.
Print Assumptions C59_cc00_reeds_shepp.

Theorem C59_hc00_reeds_shepp (k s : R) (forward left1 left2 : bool) (s1 s2 : State) (cs : list Control) :
  0 < k -> 0 < s -> epsilon < k / s -> Rmax (total_length cs) (pos_dist s1 s2) < DBL_MAX -> no_turn_00 k s left1 forward s1 s2 ->
  dubins_shape k s true true forward left1 left2 cs -> same_pose (lib_path s1 cs) s2 ->
  exists D, ModelHC00R.get_distance k s s1 s2 = Some (Some D) /\ D <= Rmax (total_length cs) (pos_dist s1 s2).
Proof. exact (OptHC00R.hc00_reeds_shepp_opt k s s1 s2 left1 left2 forward cs). Qed.
Print Assumptions C59_hc00_reeds_shepp.

Theorem C59_hc0pm_reeds_shepp (k s : R) (forward left1 left2 : bool) (s1 s2 : State) (cs : list Control) :
  0 < k -> 0 < s -> epsilon < k / s -> Rmax (total_length cs) (pos_dist s1 s2) < DBL_MAX -> no_turn_0pm k s left1 left2 forward s1 s2 -> on_side left2 s2 ->
  dubins_shape k s true false forward left1 left2 cs -> same_pose (lib_path s1 cs) s2 ->
  exists D, ModelHC0pmR.get_distance k s s1 s2 = Some (Some D) /\ D <= Rmax (total_length cs) (pos_dist s1 s2).
Proof. exact (OptHC0pmR.hc0pm_reeds_shepp_opt k s s1 s2 left1 left2 forward cs). Qed.
Print Assumptions C59_hc0pm_reeds_shepp.

Theorem C59_hcpm0_reeds_shepp (k s : R) (forward left1 left2 : bool) (s1 s2 : State) (cs : list Control) :
  0 < k -> 0 < s -> epsilon < k / s -> Rmax (total_length cs) (pos_dist s1 s2) < DBL_MAX -> no_turn_pm0 k s left1 left2 forward s1 s2 -> on_side left1 s1 ->
  dubins_shape k s false true forward left1 left2 cs -> same_pose (lib_path s1 cs) s2 ->
  exists D, ModelHCpm0R.get_distance k s s1 s2 = Some (Some D) /\ D <= Rmax (total_length cs) (pos_dist s1 s2).
Proof. exact (OptHCpm0R.hcpm0_reeds_shepp_opt k s s1 s2 left1 left2 forward cs). Qed.
Print Assumptions C59_hcpm0_reeds_shepp.

Theorem C59_hcpmpm_reeds_shepp (k s : R) (forward left1 left2 : bool) (s1 s2 : State) (cs : list Control) :
  0 < k -> 0 < s -> epsilon < k / s -> Rmax (total_length cs) (pos_dist s1 s2) < DBL_MAX -> no_turn_pmpm k left1 s1 s2 -> on_side left1 s1 -> on_side left2 s2 ->
  dubins_shape k s false false forward left1 left2 cs -> same_pose (lib_path s1 cs) s2 ->
  exists D, ModelHCpmpmR.get_distance k s s1 s2 = Some (Some D) /\ D <= Rmax (total_length cs) (pos_dist s1 s2).
Proof. exact (OptHCpmpmR.hcpmpm_reeds_shepp_opt k s s1 s2 left1 left2 forward cs). Qed.
Print Assumptions C59_hcpmpm_reeds_shepp.

(** A turn, a straight line of length 100 and a turn to the left, in either direction, for each of the four combinations of curvatures at the ends. *)
Example C59_case (forward : bool) :
  (forall z1 z2, Rmax (total_length (case_word z1 z2 forward)) (pos_dist (case_start z1) (case_goal z1 z2 forward)) < DBL_MAX /\
     dubins_shape 1 1 z1 z2 forward true true (case_word z1 z2 forward) /\ same_pose (lib_path (case_start z1) (case_word z1 z2 forward)) (case_goal z1 z2 forward)) /\
  no_turn_00 1 1 true forward (case_start true) (case_goal true true forward) /\
  no_turn_0pm 1 1 true true forward (case_start true) (case_goal true false forward) /\ (forall z1, on_side true (case_goal z1 false forward)) /\
  no_turn_pm0 1 1 true true forward (case_start false) (case_goal false true forward) /\ on_side true (case_start false) /\
  no_turn_pmpm 1 true (case_start false) (case_goal false false forward).
Proof.
  exact (conj (fun z1 z2 => conj (case_bound z1 z2 forward) (case_shape z1 z2 forward)) (conj (case_00 forward) (conj (case_0pm forward) (conj (fun z1 => case_side2 z1 forward)
    (conj (case_pm0 forward) (conj case_side1 (case_pmpm forward))))))).
Qed.
