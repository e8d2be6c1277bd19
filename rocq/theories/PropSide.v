(** * Properties of the planners between states that are clear of each other *)
From Coq Require Import Reals ZArith List.
From Verif Require Import Base ModelUtil ModelCircle ModelPaths SpecPath SpecTurn SpecPlan SpecSide SideProofs.
From Verif Require ModelCC0pmD SideCC0pmD ModelCCpm0D SideCCpm0D ModelCCpmpmD SideCCpmpmD ModelHC0pmR SideHC0pmR ModelHCpm0R SideHCpm0R ModelHCpmpmR SideHCpmpmR.
Import ListNotations.
Open Scope R_scope.

(** The full statements of C36-C38 and C41-C43 are those below without the condition [clear_...]; they are
    refuted in PropCC.v and PropHC.v. The conditions concern start and goal only: their poses differ by
    more than the library tolerance, and no circle of one side coincides with a circle of the other side. *)

Theorem C36_cc0pm_dubins_clear_partial (k s : R) (forward : bool) (s1 s2 : State) :
  0 < k -> 0 < s -> pos_dist s1 s2 + detour k s < DBL_MAX -> clear_0pm k s s1 s2 ->
  exists t L cs k1, ModelCC0pmD.get_distance k s forward s1 s2 = Some (Some L) /\
    ModelCC0pmD.get_controls k s forward s1 s2 = Some cs /\
    L <= pos_dist s1 s2 + detour k s /\ cs <> [] /\ bound_kappa k s2 k1 /\
    drives k s (dubins_pieces t) (dubins_gap k s t) s1 s2 cs L /\ curvature_chain 0 cs k1.
Proof. exact (SideCC0pmD.cc0pm_dubins_clear k s forward s1 s2). Qed.
Print Assumptions C36_cc0pm_dubins_clear_partial.

Example C36_clear_case : let s1 := mkState 0 0 0 0 1 in let s2 := mkState 60 80 0 1 1 in
  pos_dist s1 s2 + detour 1 1 < DBL_MAX /\ clear_0pm 1 1 s1 s2.
Proof. pose proof (far_clear 0 1) as C. exact (conj (proj1 (proj2 C)) (proj1 (proj2 (proj2 C)))). Qed.

Theorem C37_ccpm0_dubins_clear_partial (k s : R) (forward : bool) (s1 s2 : State) :
  0 < k -> 0 < s -> pos_dist s1 s2 + detour k s < DBL_MAX -> clear_pm0 k s s1 s2 ->
  exists t L cs k0, ModelCCpm0D.get_distance k s forward s1 s2 = Some (Some L) /\
    ModelCCpm0D.get_controls k s forward s1 s2 = Some cs /\
    L <= pos_dist s1 s2 + detour k s /\ cs <> [] /\ bound_kappa k s1 k0 /\
    drives k s (dubins_pieces t) (dubins_gap k s t) s1 s2 cs L /\ curvature_chain k0 cs 0.
Proof. exact (SideCCpm0D.ccpm0_dubins_clear k s forward s1 s2). Qed.
Print Assumptions C37_ccpm0_dubins_clear_partial.

Example C37_clear_case : let s1 := mkState 0 0 0 1 1 in let s2 := mkState 60 80 0 0 1 in
  pos_dist s1 s2 + detour 1 1 < DBL_MAX /\ clear_pm0 1 1 s1 s2.
Proof. pose proof (far_clear 1 0) as C. exact (conj (proj1 (proj2 C)) (proj1 (proj2 (proj2 (proj2 C))))). Qed.

Theorem C38_ccpmpm_dubins_clear_partial (k s : R) (forward : bool) (s1 s2 : State) :
  0 < k -> 0 < s -> pos_dist s1 s2 + detour k s < DBL_MAX -> clear_pmpm k s1 s2 ->
  exists t L cs k0 k1, ModelCCpmpmD.get_distance k s forward s1 s2 = Some (Some L) /\
    ModelCCpmpmD.get_controls k s forward s1 s2 = Some cs /\
    L <= pos_dist s1 s2 + detour k s /\ cs <> [] /\ bound_kappa k s1 k0 /\ bound_kappa k s2 k1 /\
    drives k s (dubins_pieces t) (dubins_gap k s t) s1 s2 cs L /\ curvature_chain k0 cs k1.
Proof. exact (SideCCpmpmD.ccpmpm_dubins_clear k s forward s1 s2). Qed.
Print Assumptions C38_ccpmpm_dubins_clear_partial.

Example C38_clear_case : let s1 := mkState 0 0 0 1 1 in let s2 := mkState 60 80 0 (-1) 1 in
  pos_dist s1 s2 + detour 1 1 < DBL_MAX /\ clear_pmpm 1 s1 s2.
Proof. pose proof (far_clear 1 (-1)) as C. exact (conj (proj1 (proj2 C)) (proj2 (proj2 (proj2 (proj2 C))))). Qed.

Theorem C41_hc0pm_reeds_shepp_clear_partial (k s : R) (s1 s2 : State) :
  0 < k -> 0 < s -> pos_dist s1 s2 + detour k s < DBL_MAX -> clear_0pm k s s1 s2 ->
  exists t L cs k1, ModelHC0pmR.get_distance k s s1 s2 = Some (Some L) /\
    ModelHC0pmR.get_controls k s s1 s2 = Some cs /\
    L <= pos_dist s1 s2 + detour k s /\ cs <> [] /\ bound_kappa k s2 k1 /\
    drives k s (rs_pieces t) (rs_gap k s t) s1 s2 cs L /\ hybrid 0 cs k1.
Proof. exact (SideHC0pmR.hc0pm_reeds_shepp_clear k s s1 s2). Qed.
Print Assumptions C41_hc0pm_reeds_shepp_clear_partial.

Example C41_clear_case : let s1 := mkState 0 0 0 0 1 in let s2 := mkState 60 80 0 1 1 in
  pos_dist s1 s2 + detour 1 1 < DBL_MAX /\ clear_0pm 1 1 s1 s2.
Proof. pose proof (far_clear 0 1) as C. exact (conj (proj1 (proj2 C)) (proj1 (proj2 (proj2 C)))). Qed.

Theorem C42_hcpm0_reeds_shepp_clear_partial (k s : R) (s1 s2 : State) :
  0 < k -> 0 < s -> pos_dist s1 s2 + detour k s < DBL_MAX -> clear_pm0 k s s1 s2 ->
  exists t L cs k0, ModelHCpm0R.get_distance k s s1 s2 = Some (Some L) /\
    ModelHCpm0R.get_controls k s s1 s2 = Some cs /\
    L <= pos_dist s1 s2 + detour k s /\ cs <> [] /\ bound_kappa k s1 k0 /\
    drives k s (rs_pieces t) (rs_gap k s t) s1 s2 cs L /\ hybrid k0 cs 0.
Proof. exact (SideHCpm0R.hcpm0_reeds_shepp_clear k s s1 s2). Qed.
Print Assumptions C42_hcpm0_reeds_shepp_clear_partial.

Example C42_clear_case : let s1 := mkState 0 0 0 1 1 in let s2 := mkState 60 80 0 0 1 in
  pos_dist s1 s2 + detour 1 1 < DBL_MAX /\ clear_pm0 1 1 s1 s2.
Proof. pose proof (far_clear 1 0) as C. exact (conj (proj1 (proj2 C)) (proj1 (proj2 (proj2 (proj2 C))))). Qed.

Theorem C43_hcpmpm_reeds_shepp_clear_partial (k s : R) (s1 s2 : State) :
  0 < k -> 0 < s -> pos_dist s1 s2 + detour k s < DBL_MAX -> clear_pmpm k s1 s2 ->
  exists t L cs k0 k1, ModelHCpmpmR.get_distance k s s1 s2 = Some (Some L) /\
    ModelHCpmpmR.get_controls k s s1 s2 = Some cs /\
    L <= pos_dist s1 s2 + detour k s /\ cs <> [] /\ bound_kappa k s1 k0 /\ bound_kappa k s2 k1 /\
    drives k s (rs_pieces t) (rs_gap k s t) s1 s2 cs L /\ hybrid k0 cs k1.
Proof. exact (SideHCpmpmR.hcpmpm_reeds_shepp_clear k s s1 s2). Qed.
Print Assumptions C43_hcpmpm_reeds_shepp_clear_partial.

Example C43_clear_case : let s1 := mkState 0 0 0 1 1 in let s2 := mkState 60 80 0 (-1) 1 in
  pos_dist s1 s2 + detour 1 1 < DBL_MAX /\ clear_pmpm 1 s1 s2.
Proof. pose proof (far_clear 1 (-1)) as C. exact (conj (proj1 (proj2 C)) (proj2 (proj2 (proj2 (proj2 C))))). Qed.
