(** * Property C58: the Dubins planners drive in one direction *)
From Coq Require Import Reals ZArith List.
From Verif Require Import Base ModelUtil ModelCircle ModelPaths ModelWrap SpecPath SpecPlan SpecDir PlanCases WrapCases DirPlan.
From Verif Require ModelCC00D ModelCC0pmD ModelCCpm0D ModelCCpmpmD DirCC00D DirCC0pmD DirCCpm0D DirCCpmpmD.
Import ListNotations.
Open Scope R_scope.

(** C58. No control of the path goes against the driving direction [forward] of the space. This is exact for the
    families TST, TTT, TTTT and for aligned states, for which [dubins_gap] is 0. In the families T and TT, which accept
    a mismatch up to a tolerance, a turn of nearly no deflection is driven as a straight line, which may go
    back by a multiple of the tolerance. *)
Theorem C58_cc00_dubins (k s : R) (forward : bool) (s1 s2 : State) :
  0 < k -> 0 < s -> pos_dist s1 s2 + detour k s < DBL_MAX ->
  exists p cs, ModelCC00D.cc00_dubins k s forward s1 s2 = Some p /\ ModelCC00D.get_controls k s forward s1 s2 = Some cs /\
    keeps_direction (3 * dubins_gap k s (h_type p)) forward cs.
Proof. exact (DirCC00D.cc00_dubins_direction k s forward s1 s2). Qed.
Print Assumptions C58_cc00_dubins.

Theorem C58_cc0pm_dubins (k s : R) (forward : bool) (s1 s2 : State) :
  0 < k -> 0 < s -> pos_dist s1 s2 + detour k s < DBL_MAX ->
  exists p cs, ModelCC0pmD.cc0pm_dubins k s forward s1 s2 = Some p /\ ModelCC0pmD.get_controls k s forward s1 s2 = Some cs /\
    keeps_direction (3 * dubins_gap k s (h_type p)) forward cs.
Proof. exact (DirCC0pmD.cc0pm_dubins_direction k s forward s1 s2). Qed.
Print Assumptions C58_cc0pm_dubins.

Theorem C58_ccpm0_dubins (k s : R) (forward : bool) (s1 s2 : State) :
  0 < k -> 0 < s -> pos_dist s1 s2 + detour k s < DBL_MAX ->
  exists p cs, ModelCCpm0D.ccpm0_dubins k s forward s1 s2 = Some p /\ ModelCCpm0D.get_controls k s forward s1 s2 = Some cs /\
    keeps_direction (3 * dubins_gap k s (h_type p)) forward cs.
Proof. exact (DirCCpm0D.ccpm0_dubins_direction k s forward s1 s2). Qed.
Print Assumptions C58_ccpm0_dubins.

Theorem C58_ccpmpm_dubins (k s : R) (forward : bool) (s1 s2 : State) :
  0 < k -> 0 < s -> pos_dist s1 s2 + detour k s < DBL_MAX ->
  exists p cs, ModelCCpmpmD.ccpmpm_dubins k s forward s1 s2 = Some p /\ ModelCCpmpmD.get_controls k s forward s1 s2 = Some cs /\
    keeps_direction (3 * dubins_gap k s (h_type p)) forward cs.
Proof. exact (DirCCpmpmD.ccpmpm_dubins_direction k s forward s1 s2). Qed.
Print Assumptions C58_ccpmpm_dubins.

Example C58_case : 0 < 1 /\ 0 < 1 /\ pos_dist (mkState 0 0 0 0 1) (mkState 3 4 PI 0 1) + detour 1 1 < DBL_MAX.
Proof. exact (case_near _ _). Qed.

(** The same for states of any curvature, also when predicted states coincide. *)
Theorem C58_cc_dubins (junk k s : R) (forward : bool) (s1 s2 : State) :
  0 < k -> 0 < s -> Rabs (st_kappa s1) <= k -> Rabs (st_kappa s2) <= k -> pos_dist s1 s2 + 2 * detour k s < DBL_MAX ->
  exists cs, cc_dubins_controls junk k s forward s1 s2 = Some cs /\ keeps_direction (3 * dubins_gap k s D_T) forward cs.
Proof. exact (fun Hk Hs => cc_dubins_direction k s Hk Hs junk forward s1 s2). Qed.
Print Assumptions C58_cc_dubins.

Example C58_any_case : let s1 := mkState 0 0 0 (1 / 2) 1 in let s2 := mkState 60 80 0 (- (1 / 4)) 1 in
  Rabs (st_kappa s1) <= 1 /\ Rabs (st_kappa s2) <= 1 /\ pos_dist s1 s2 + 2 * detour 1 1 < DBL_MAX.
Proof. exact (conj (proj1 far_case) (conj (proj1 (proj2 far_case)) (proj1 (proj2 (proj2 far_case))))). Qed.
