(** * Property C74: distances and the difference of the headings *)
From Coq Require Import Reals ZArith List.
From Verif Require Import Base ModelUtil ModelCircle ModelPaths ModelWrap ModelDubins ModelRS SpecPath SpecPlan SpecSide SpecWrap SpecHead WrapZero HeadProofs HeadSide PlanCases SideProofs WrapCases PropRS.
From Verif Require ModelCC00D ModelCC0pmD ModelCCpm0D ModelCCpmpmD ModelCC00R ModelHC00R ModelHC0pmR ModelHCpm0R ModelHCpmpmR.
Open Scope R_scope.

(** C74, Reeds-Shepp: exact. *)
Theorem C74_rs_heading (kappa : R) (state1 state2 : State) :
  0 < kappa -> kappa * pos_dist state1 state2 <= 10 ^ 299 ->
  heading_within (kappa * rs_distance kappa state1 state2) state1 state2.
Proof. exact (rs_turns kappa state1 state2). Qed.
Print Assumptions C74_rs_heading.

(** C74, Dubins: up to the heading tolerance of the planner. *)
Theorem C74_dubins_heading (kappa : R) (forwards : bool) (state1 state2 : State) :
  0 < kappa -> kappa * pos_dist state1 state2 <= 10 ^ 300 ->
  heading_within (kappa * dubins_distance kappa forwards state1 state2 + 1 / 1000000) state1 state2.
Proof. exact (dubins_turns kappa forwards state1 state2). Qed.
Print Assumptions C74_dubins_heading.

Example C74_case : 0 < 2 /\ 2 * pos_dist (mkState 1 2 3 0 0) (mkState 4 (-2) (-5) 0 0) <= 10 ^ 299.
Proof. exact C17_case. Qed.

(** C74 for the planners that start and end with zero curvature *)
Theorem C74_zero_curvature (k s : R) (forward : bool) (s1 s2 : State) :
  0 < k -> 0 < s -> pos_dist s1 s2 + detour k s < DBL_MAX ->
  (exists t L, ModelCC00D.get_distance k s forward s1 s2 = Some (Some L) /\ turns_enough k s (dubins_pieces t) (dubins_gap k s t) s1 s2 L) /\
  (exists t L, ModelCC00R.get_distance k s s1 s2 = Some (Some L) /\ turns_enough k s (rs_pieces t) (cc_rs_gap k s t) s1 s2 L) /\
  (exists t L, ModelHC00R.get_distance k s s1 s2 = Some (Some L) /\ turns_enough k s (rs_pieces t) (rs_gap k s t) s1 s2 L).
Proof. exact (zero_turns k s forward s1 s2). Qed.
Print Assumptions C74_zero_curvature.

(** for those that start and end with the curvature bound, *)
Theorem C74_bound_to_bound (k s : R) (forward : bool) (s1 s2 : State) :
  0 < k -> 0 < s -> pos_dist s1 s2 + detour k s < DBL_MAX ->
  (exists t L, ModelCCpmpmD.get_distance k s forward s1 s2 = Some (Some L) /\ turns_enough k s (dubins_pieces t) (dubins_gap k s t) s1 s2 L) /\
  (exists t L, ModelHCpmpmR.get_distance k s s1 s2 = Some (Some L) /\ turns_enough k s (rs_pieces t) (rs_gap k s t) s1 s2 L).
Proof. exact (both_turns k s forward s1 s2). Qed.
Print Assumptions C74_bound_to_bound.

(** and for those in between, also where they turn around a circle on the wrong side (C36, C37, C41, C42). *)
Theorem C74_zero_and_bound (k s : R) (forward : bool) (s1 s2 : State) :
  0 < k -> 0 < s -> pos_dist s1 s2 + detour k s < DBL_MAX ->
  (exists t L, ModelCC0pmD.get_distance k s forward s1 s2 = Some (Some L) /\ turns_enough k s (dubins_pieces t) (dubins_gap k s t) s1 s2 L) /\
  (exists t L, ModelCCpm0D.get_distance k s forward s1 s2 = Some (Some L) /\ turns_enough k s (dubins_pieces t) (dubins_gap k s t) s1 s2 L) /\
  (exists t L, ModelHC0pmR.get_distance k s s1 s2 = Some (Some L) /\ turns_enough k s (rs_pieces t) (rs_gap k s t) s1 s2 L) /\
  (exists t L, ModelHCpm0R.get_distance k s s1 s2 = Some (Some L) /\ turns_enough k s (rs_pieces t) (rs_gap k s t) s1 s2 L).
Proof. exact (zero_bound_turns k s forward s1 s2). Qed.
Print Assumptions C74_zero_and_bound.

Example C74_near_case : 0 < 1 /\ 0 < 1 /\ pos_dist (mkState 0 0 0 0 1) (mkState 3 4 PI 0 1) + detour 1 1 < DBL_MAX.
Proof. exact (case_near _ _). Qed.

(** For the spaces for states of any curvature the full statement is [wrap_turns_enough] for all states, proved is
    the case in which start and goal are not close to each other. *)
Theorem C74_any_curvature_partial (junk k s : R) (forward : bool) (s1 s2 : State) :
  0 < k -> 0 < s -> Rabs (st_kappa s1) <= k -> Rabs (st_kappa s2) <= k ->
  pos_dist s1 s2 + 2 * detour k s < DBL_MAX -> epsilon + 5 * (k / s + 1 / k) <= pos_dist s1 s2 ->
  (exists t L, cc_dubins_distance junk k s forward s1 s2 = Some (Some L) /\ wrap_turns_enough k s (dubins_pieces t) (dubins_gap k s t) s1 s2 L) /\
  (exists t L, hc_rs_distance junk k s s1 s2 = Some (Some L) /\ wrap_turns_enough k s (rs_pieces t) (rs_gap k s t) s1 s2 L).
Proof. exact (wrapped_turns junk k s forward s1 s2). Qed.
Print Assumptions C74_any_curvature_partial.

Example C74_far_case : let s1 := mkState 0 0 0 (1 / 2) 1 in let s2 := mkState 60 80 0 (- (1 / 4)) 1 in
  Rabs (st_kappa s1) <= 1 /\ Rabs (st_kappa s2) <= 1 /\ pos_dist s1 s2 + 2 * detour 1 1 < DBL_MAX /\
  epsilon + 5 * (1 / 1 + 1 / 1) <= pos_dist s1 s2.
Proof. exact far_case. Qed.

(** Predicted states of start and goal meet although the headings of start and goal differ by 1; the distance is zero. *)
Theorem C74_any_curvature_refuted (junk : R) : exists s1 s2 L,
  Rabs (st_kappa s1) <= 1 /\ Rabs (st_kappa s2) <= 1 /\ hc_rs_distance junk 1 (1 / 4) s1 s2 = Some (Some L) /\ L <= 0 /\
  ~ heading_within (9 / 10) s1 s2.
Proof. exact (zero_apart_heading junk). Qed.
Print Assumptions C74_any_curvature_refuted.
