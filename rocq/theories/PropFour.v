(** * Property C66: no path of four turns to the goal is shorter than the distance of the planner *)
From Coq Require Import Reals ZArith List.
From Verif Require Import Base ModelUtil ModelCircle ModelPaths SpecPath SpecTurn SpecPlan SpecOpt SpecFour OptCases FourCases.
From Verif Require ModelCCpmpmD FourCCpmpmD.
Import ListNotations.
Open Scope R_scope.

(** C66. Let the path [cs] of four turns in the direction [forward], the first one to the side [left], lead from [s1] to [s2]. Then
    the CC Dubins planner between states of the curvature of the bound answers with a distance of at most the length of [cs],
    provided that the goal is not at the end of one turn from the start. For an explanation of the
    condition on the turns in the middle see [four_shape]. *)
Theorem C66_ccpmpm_dubins (k s : R) (forward left : bool) (s1 s2 : State) (cs : list Control) :
  0 < k -> 0 < s -> epsilon < k / s -> total_length cs < DBL_MAX -> no_turn_pmpm k left s1 s2 ->
  on_side left s1 -> on_side (negb left) s2 -> four_shape k s false false left forward cs -> same_pose (lib_path s1 cs) s2 ->
  exists D, ModelCCpmpmD.get_distance k s forward s1 s2 = Some (Some D) /\ D <= total_length cs.
Proof. exact (FourCCpmpmD.ccpmpm_dubins_four k s forward s1 s2 left cs). Qed.
Print Assumptions C66_ccpmpm_dubins.

(** Four turns in either direction, where the turns in the middle sweep one and a half circles each. *)
Example C66_case (forward : bool) :
  total_length (four_word forward) < DBL_MAX /\ no_turn_pmpm 1 true (case_start false) (four_goal forward) /\
  on_side true (case_start false) /\ on_side false (four_goal forward) /\ four_shape 1 1 false false true forward (four_word forward) /\
  same_pose (lib_path (case_start false) (four_word forward)) (four_goal forward).
Proof. exact (conj (four_bound forward) (conj (four_pmpm forward) (conj case_side1 (conj (four_side forward) (four_shape_case forward))))). Qed.
