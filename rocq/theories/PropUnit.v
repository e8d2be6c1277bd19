(** * Property C65: a goal at the end of one turn or one straight line is not further away than that *)
From Coq Require Import Reals ZArith List.
From Verif Require Import Base ModelUtil ModelCircle SpecPath SpecTurn SpecSide SpecOpt SpecCusp OptCases UnitCases.
From Verif Require ModelCC00D ModelCC0pmD ModelCCpm0D ModelCCpmpmD ModelCC00R ModelHC00R ModelHC0pmR ModelHCpm0R ModelHCpmpmR.
From Verif Require UnitCC00D UnitCC0pmD UnitCCpm0D UnitCCpmpmD UnitCC00R UnitHC00R UnitHC0pmR UnitHCpm0R UnitHCpmpmR.
Import ListNotations.
Open Scope R_scope.

(** C65, turns. Let one turn, made of clothoids of full sharpness and an arc of full curvature of any length, lead from [s1] to [s2]
    according to the library's own motion. Then the planner answers with a distance that is not longer than the turn. These goals are
    the ones that C59, C63 and C64 exclude. For the planners between states of curvature 0 the straight line between the states enters
    as in C59, because they take it for aligned states. *)

Theorem C65_cc00_dubins_turn (k s : R) (forward left : bool) (s1 s2 : State) (a : R) :
  0 < k -> 0 < s -> epsilon < k / s -> Rmax (total_length (turn k s true true left forward a)) (pos_dist s1 s2) < DBL_MAX ->
  0 <= a -> same_pose (lib_path s1 (turn k s true true left forward a)) s2 ->
  exists D, ModelCC00D.get_distance k s forward s1 s2 = Some (Some D) /\ D <= Rmax (total_length (turn k s true true left forward a)) (pos_dist s1 s2).
Proof. exact (UnitCC00D.cc00_dubins_unit k s forward s1 s2 left a). Qed.
Print Assumptions C65_cc00_dubins_turn.

Theorem C65_cc0pm_dubins_turn (k s : R) (forward left : bool) (s1 s2 : State) (a : R) :
  0 < k -> 0 < s -> epsilon < k / s -> total_length (turn k s true false left forward a) < DBL_MAX -> on_side left s2 ->
  0 <= a -> same_pose (lib_path s1 (turn k s true false left forward a)) s2 ->
  exists D, ModelCC0pmD.get_distance k s forward s1 s2 = Some (Some D) /\ D <= total_length (turn k s true false left forward a).
Proof. exact (UnitCC0pmD.cc0pm_dubins_unit k s forward s1 s2 left a). Qed.
Print Assumptions C65_cc0pm_dubins_turn.

Theorem C65_ccpm0_dubins_turn (k s : R) (forward left : bool) (s1 s2 : State) (a : R) :
  0 < k -> 0 < s -> epsilon < k / s -> total_length (turn k s false true left forward a) < DBL_MAX -> on_side left s1 ->
  0 <= a -> same_pose (lib_path s1 (turn k s false true left forward a)) s2 ->
  exists D, ModelCCpm0D.get_distance k s forward s1 s2 = Some (Some D) /\ D <= total_length (turn k s false true left forward a).
Proof. exact (UnitCCpm0D.ccpm0_dubins_unit k s forward s1 s2 left a). Qed.
Print Assumptions C65_ccpm0_dubins_turn.

Theorem C65_ccpmpm_dubins_turn (k s : R) (forward left : bool) (s1 s2 : State) (a : R) :
  0 < k -> 0 < s -> epsilon < k / s -> total_length (turn k s false false left forward a) < DBL_MAX -> on_side left s1 -> on_side left s2 ->
  0 <= a -> same_pose (lib_path s1 (turn k s false false left forward a)) s2 ->
  exists D, ModelCCpmpmD.get_distance k s forward s1 s2 = Some (Some D) /\ D <= total_length (turn k s false false left forward a).
Proof. exact (UnitCCpmpmD.ccpmpm_dubins_unit k s forward s1 s2 left a). Qed.
Print Assumptions C65_ccpmpm_dubins_turn.

Theorem C65_cc00_reeds_shepp_turn (k s : R) (forward left : bool) (s1 s2 : State) (a : R) :
  0 < k -> 0 < s -> epsilon < k / s -> Rmax (total_length (turn k s true true left forward a)) (pos_dist s1 s2) < DBL_MAX ->
  0 <= a -> same_pose (lib_path s1 (turn k s true true left forward a)) s2 ->
  exists D, ModelCC00R.get_distance k s s1 s2 = Some (Some D) /\ D <= Rmax (total_length (turn k s true true left forward a)) (pos_dist s1 s2).
Proof. exact (UnitCC00R.cc00_reeds_shepp_unit k s s1 s2 left forward a). Qed.
Print Assumptions C65_cc00_reeds_shepp_turn.

Theorem C65_hc00_reeds_shepp_turn (k s : R) (forward left : bool) (s1 s2 : State) (a : R) :
  0 < k -> 0 < s -> epsilon < k / s -> Rmax (total_length (turn k s true true left forward a)) (pos_dist s1 s2) < DBL_MAX ->
  0 <= a -> same_pose (lib_path s1 (turn k s true true left forward a)) s2 ->
  exists D, ModelHC00R.get_distance k s s1 s2 = Some (Some D) /\ D <= Rmax (total_length (turn k s true true left forward a)) (pos_dist s1 s2).
Proof. exact (UnitHC00R.hc00_reeds_shepp_unit k s s1 s2 left forward a). Qed.
Print Assumptions C65_hc00_reeds_shepp_turn.

Theorem C65_hc0pm_reeds_shepp_turn (k s : R) (forward left : bool) (s1 s2 : State) (a : R) :
  0 < k -> 0 < s -> epsilon < k / s -> total_length (turn k s true false left forward a) < DBL_MAX -> on_side left s2 ->
  0 <= a -> same_pose (lib_path s1 (turn k s true false left forward a)) s2 ->
  exists D, ModelHC0pmR.get_distance k s s1 s2 = Some (Some D) /\ D <= total_length (turn k s true false left forward a).
Proof. exact (UnitHC0pmR.hc0pm_reeds_shepp_unit k s s1 s2 left forward a). Qed.
Print Assumptions C65_hc0pm_reeds_shepp_turn.

Theorem C65_hcpm0_reeds_shepp_turn (k s : R) (forward left : bool) (s1 s2 : State) (a : R) :
  0 < k -> 0 < s -> epsilon < k / s -> total_length (turn k s false true left forward a) < DBL_MAX -> on_side left s1 ->
  0 <= a -> same_pose (lib_path s1 (turn k s false true left forward a)) s2 ->
  exists D, ModelHCpm0R.get_distance k s s1 s2 = Some (Some D) /\ D <= total_length (turn k s false true left forward a).
Proof. exact (UnitHCpm0R.hcpm0_reeds_shepp_unit k s s1 s2 left forward a). Qed.
Print Assumptions C65_hcpm0_reeds_shepp_turn.

Theorem C65_hcpmpm_reeds_shepp_turn (k s : R) (forward left : bool) (s1 s2 : State) (a : R) :
  0 < k -> 0 < s -> epsilon < k / s -> total_length (turn k s false false left forward a) < DBL_MAX -> on_side left s1 -> on_side left s2 ->
  0 <= a -> same_pose (lib_path s1 (turn k s false false left forward a)) s2 ->
  exists D, ModelHCpmpmR.get_distance k s s1 s2 = Some (Some D) /\ D <= total_length (turn k s false false left forward a).
Proof. exact (UnitHCpmpmR.hcpmpm_reeds_shepp_unit k s s1 s2 left forward a). Qed.
Print Assumptions C65_hcpmpm_reeds_shepp_turn.

(** C65, straight lines. Let the straight line of length [d] in the direction [forward] lead from [s1] to [s2]. Then the planner
    answers with a distance of at most [d]. *)

Theorem C65_cc00_dubins_line (k s : R) (forward : bool) (s1 s2 : State) (d : R) :
  0 < k -> 0 < s -> d < DBL_MAX -> 0 <= d -> same_pose (lib_path s1 [line forward d]) s2 ->
  exists D, ModelCC00D.get_distance k s forward s1 s2 = Some (Some D) /\ D <= d.
Proof. exact (UnitCC00D.cc00_dubins_line k s forward s1 s2 d). Qed.
Print Assumptions C65_cc00_dubins_line.

Theorem C65_cc00_reeds_shepp_line (k s : R) (forward : bool) (s1 s2 : State) (d : R) :
  0 < k -> 0 < s -> d < DBL_MAX -> 0 <= d -> same_pose (lib_path s1 [line forward d]) s2 ->
  exists D, ModelCC00R.get_distance k s s1 s2 = Some (Some D) /\ D <= d.
Proof. exact (UnitCC00R.cc00_reeds_shepp_line k s s1 s2 forward d). Qed.
Print Assumptions C65_cc00_reeds_shepp_line.

Theorem C65_hc00_reeds_shepp_line (k s : R) (forward : bool) (s1 s2 : State) (d : R) :
  0 < k -> 0 < s -> d < DBL_MAX -> 0 <= d -> same_pose (lib_path s1 [line forward d]) s2 ->
  exists D, ModelHC00R.get_distance k s s1 s2 = Some (Some D) /\ D <= d.
Proof. exact (UnitHC00R.hc00_reeds_shepp_line k s s1 s2 forward d). Qed.
Print Assumptions C65_hc00_reeds_shepp_line.

(** A left turn with an arc of length 1 in either direction, for each of the four combinations of curvatures at the ends, and a
    straight line of length 5 in either direction. *)
Example C65_case (forward : bool) :
  (forall z1 z2, Rmax (total_length (unit_word z1 z2 forward)) (pos_dist (case_start z1) (unit_goal z1 z2 forward)) < DBL_MAX /\
     unit_word z1 z2 forward = turn 1 1 z1 z2 true forward 1 /\ same_pose (lib_path (case_start z1) (unit_word z1 z2 forward)) (unit_goal z1 z2 forward)) /\
  on_side true (case_start false) /\ (forall z1, on_side true (unit_goal z1 false forward)) /\
  5 < DBL_MAX /\ same_pose (lib_path (mkState 1 2 3 0 1) [line forward 5]) (mkState (1 + sign forward * 5 * cos 3) (2 + sign forward * 5 * sin 3) 3 0 1).
Proof.
  exact (conj (fun z1 z2 => conj (unit_bound z1 z2 forward) (conj eq_refl (unit_same z1 z2 forward))) (conj case_side1 (conj (fun z1 => unit_side z1 forward) (unit_line forward)))).
Qed.
