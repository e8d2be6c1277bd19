(** * Property C81: the assertions on turns *)
From Coq Require Import Reals List.
From Verif Require Import Base ModelUtil ModelCircle ModelPaths ModelAsserts SpecPath SpecPlan PlanCases AssertAll ModelCalls Calls.
From Verif Require ModelCC00D ModelCC0pmD ModelCCpm0D ModelCCpmpmD ModelCC00R ModelHC00R ModelHC0pmR ModelHCpm0R ModelHCpmpmR.
Open Scope R_scope.

(** The plan exists and is turned into controls without a null pointer, and every turn it is made of meets the assertion
    of the function that turns it into controls: the curvature of the configuration where the turn ends is that of the
    circle, or zero, and an arc without clothoids belongs to a circle of infinite sharpness. *)
Theorem C81_turn_assertions (k s : R) (forward : bool) (s1 s2 : State) : 0 < k -> 0 < s -> pos_dist s1 s2 + detour k s < DBL_MAX ->
  (exists p cs, ModelCC00D.cc00_dubins k s forward s1 s2 = Some p /\ ModelCC00D.path_controls p = Some cs /\ asserts_CC00D p) /\
  (exists p cs, ModelCC0pmD.cc0pm_dubins k s forward s1 s2 = Some p /\ ModelCC0pmD.path_controls p = Some cs /\ asserts_CC0pmD p) /\
  (exists p cs, ModelCCpm0D.ccpm0_dubins k s forward s1 s2 = Some p /\ ModelCCpm0D.path_controls p = Some cs /\ asserts_CCpm0D p) /\
  (exists p cs, ModelCCpmpmD.ccpmpm_dubins k s forward s1 s2 = Some p /\ ModelCCpmpmD.path_controls p = Some cs /\ asserts_CCpmpmD p) /\
  (exists p cs, ModelCC00R.cc00_reeds_shepp k s s1 s2 = Some p /\ ModelCC00R.path_controls p = Some cs /\ asserts_CC00R p) /\
  (exists p cs, ModelHC00R.hc00_reeds_shepp k s s1 s2 = Some p /\ ModelHC00R.path_controls p = Some cs /\ asserts_HC00R p) /\
  (exists p cs, ModelHC0pmR.hc0pm_reeds_shepp k s s1 s2 = Some p /\ ModelHC0pmR.path_controls p = Some cs /\ asserts_HC0pmR p) /\
  (exists p cs, ModelHCpm0R.hcpm0_reeds_shepp k s s1 s2 = Some p /\ ModelHCpm0R.path_controls p = Some cs /\ asserts_HCpm0R p) /\
  (exists p cs, ModelHCpmpmR.hcpmpm_reeds_shepp k s s1 s2 = Some p /\ ModelHCpmpmR.path_controls p = Some cs /\ asserts_HCpmpmR p).
Proof. exact (all_asserts_hold k s forward s1 s2). Qed.
Print Assumptions C81_turn_assertions.

Example C81_case : 0 < 1 /\ 0 < 1 /\ pos_dist (mkState 0 0 0 1 1) (mkState 3 4 PI (-1) 1) + detour 1 1 < DBL_MAX.
Proof. exact (case_near _ _). Qed.

(** Also the turns of the candidates that are measured and then dropped meet the assertions of the functions that measure
    them, for every pair of circles a planner compares. *)
Theorem C81_length_assertions (k s : R) (forward : bool) (s1 s2 : State) :
  (forall c1 c2, In c1 (ModelCC00D.start_circles k s forward s1) -> In c2 (ModelCC00D.end_circles k s forward s2) -> calls_CC00D k s c1 c2) /\
  (forall c1 c2, In c1 (ModelCC0pmD.start_circles k s forward s1) -> In c2 (ModelCC0pmD.end_circles k forward s2) -> calls_CC0pmD k s c1 c2) /\
  (forall c1 c2, In c1 (ModelCCpm0D.start_circles k forward s1) -> In c2 (ModelCCpm0D.end_circles k s forward s2) -> calls_CCpm0D k s c1 c2) /\
  (forall c1 c2, In c1 (ModelCCpmpmD.start_circles k forward s1) -> In c2 (ModelCCpmpmD.end_circles k forward s2) -> calls_CCpmpmD k s c1 c2) /\
  (forall c1 c2, In c1 (ModelCC00R.start_circles k s s1) -> In c2 (ModelCC00R.end_circles k s s2) -> calls_CC00R k s c1 c2) /\
  (forall c1 c2, In c1 (ModelHC00R.start_circles k s s1) -> In c2 (ModelHC00R.end_circles k s s2) -> calls_HC00R k s c1 c2) /\
  (forall c1 c2, In c1 (ModelHC0pmR.start_circles k s s1) -> In c2 (ModelHC0pmR.end_circles k s2) -> calls_HC0pmR k s c1 c2) /\
  (forall c1 c2, In c1 (ModelHCpm0R.start_circles k s1) -> In c2 (ModelHCpm0R.end_circles k s s2) -> calls_HCpm0R k s c1 c2) /\
  (forall c1 c2, In c1 (ModelHCpmpmR.start_circles k s1) -> In c2 (ModelHCpmpmR.end_circles k s2) -> calls_HCpmpmR k s c1 c2).
Proof. exact (all_calls_hold k s forward s1 s2). Qed.
Print Assumptions C81_length_assertions.

(** A left circle at the start and a right circle at the goal. *)
Example C81_circles : In (circle (configuration 0 0 0 0) true true true (hc_cc_param 1 1)) (ModelHC00R.start_circles 1 1 (mkState 0 0 0 0 1)) /\
  In (circle (configuration 3 4 PI 0) false true true (hc_cc_param 1 1)) (ModelHC00R.end_circles 1 1 (mkState 3 4 PI 0 1)).
Proof. split; [left; reflexivity|right; left; reflexivity]. Qed.
