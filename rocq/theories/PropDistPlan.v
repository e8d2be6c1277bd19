(** * Property C57: distances of the HC/CC planners and the straight line *)
From Coq Require Import Reals ZArith List.
From Verif Require Import Base ModelUtil ModelCircle ModelPaths ModelWrap SpecPath SpecPlan SpecSide SpecWrap SpecDist DistPlan PlanCases SideProofs WrapCases WrapZero.
From Verif Require ModelCC00D ModelCC0pmD ModelCCpm0D ModelCCpmpmD ModelCC00R ModelHC00R ModelHC0pmR ModelHCpm0R ModelHCpmpmR.
Import ListNotations.
Open Scope R_scope.

(** C57. The full statement is [not_below] for all spaces and all states. It is false for the spaces in which start or
    goal have the curvature bound, see the end of the file. Proved is the full statement for the spaces that
    start and end with zero curvature, *)
Theorem C57_zero_curvature_partial (k s : R) (forward : bool) (s1 s2 : State) :
  0 < k -> 0 < s -> pos_dist s1 s2 + detour k s < DBL_MAX ->
  (exists t L cs, ModelCC00D.get_distance k s forward s1 s2 = Some (Some L) /\ ModelCC00D.get_controls k s forward s1 s2 = Some cs /\
     not_below k s (dubins_pieces t) (dubins_gap k s t) s1 s2 cs L) /\
  (exists t L cs, ModelCC00R.get_distance k s s1 s2 = Some (Some L) /\ ModelCC00R.get_controls k s s1 s2 = Some cs /\
     not_below k s (rs_pieces t) (cc_rs_gap k s t) s1 s2 cs L) /\
  (exists t L cs, ModelHC00R.get_distance k s s1 s2 = Some (Some L) /\ ModelHC00R.get_controls k s s1 s2 = Some cs /\
     not_below k s (rs_pieces t) (rs_gap k s t) s1 s2 cs L).
Proof. exact (zero_planners k s forward s1 s2). Qed.
Print Assumptions C57_zero_curvature_partial.

Example C57_case : 0 < 1 /\ 0 < 1 /\ pos_dist (mkState 0 0 0 0 1) (mkState 3 4 PI 0 1) + detour 1 1 < DBL_MAX.
Proof. exact (case_near _ _). Qed.

(** and for the other spaces between states that are clear of each other, *)
Theorem C57_curvature_bound_partial (k s : R) (forward : bool) (s1 s2 : State) :
  0 < k -> 0 < s -> pos_dist s1 s2 + detour k s < DBL_MAX ->
  (clear_0pm k s s1 s2 ->
    (exists t L cs, ModelCC0pmD.get_distance k s forward s1 s2 = Some (Some L) /\ ModelCC0pmD.get_controls k s forward s1 s2 = Some cs /\
       not_below k s (dubins_pieces t) (dubins_gap k s t) s1 s2 cs L) /\
    (exists t L cs, ModelHC0pmR.get_distance k s s1 s2 = Some (Some L) /\ ModelHC0pmR.get_controls k s s1 s2 = Some cs /\
       not_below k s (rs_pieces t) (rs_gap k s t) s1 s2 cs L)) /\
  (clear_pm0 k s s1 s2 ->
    (exists t L cs, ModelCCpm0D.get_distance k s forward s1 s2 = Some (Some L) /\ ModelCCpm0D.get_controls k s forward s1 s2 = Some cs /\
       not_below k s (dubins_pieces t) (dubins_gap k s t) s1 s2 cs L) /\
    (exists t L cs, ModelHCpm0R.get_distance k s s1 s2 = Some (Some L) /\ ModelHCpm0R.get_controls k s s1 s2 = Some cs /\
       not_below k s (rs_pieces t) (rs_gap k s t) s1 s2 cs L)) /\
  (clear_pmpm k s1 s2 ->
    (exists t L cs, ModelCCpmpmD.get_distance k s forward s1 s2 = Some (Some L) /\ ModelCCpmpmD.get_controls k s forward s1 s2 = Some cs /\
       not_below k s (dubins_pieces t) (dubins_gap k s t) s1 s2 cs L) /\
    (exists t L cs, ModelHCpmpmR.get_distance k s s1 s2 = Some (Some L) /\ ModelHCpmpmR.get_controls k s s1 s2 = Some cs /\
       not_below k s (rs_pieces t) (rs_gap k s t) s1 s2 cs L)).
Proof. exact (bound_planners k s forward s1 s2). Qed.
Print Assumptions C57_curvature_bound_partial.

Example C57_clear_case : let s1 := mkState 0 0 0 0 1 in let s2 := mkState 60 80 0 1 1 in
  pos_dist s1 s2 + detour 1 1 < DBL_MAX /\ clear_0pm 1 1 s1 s2.
Proof. pose proof (far_clear 0 1) as C. exact (conj (proj1 (proj2 C)) (proj1 (proj2 (proj2 C)))). Qed.

(** and for the spaces for states of any curvature when start and goal are not close to each other. *)
Theorem C57_any_curvature_partial (junk k s : R) (forward : bool) (s1 s2 : State) :
  0 < k -> 0 < s -> Rabs (st_kappa s1) <= k -> Rabs (st_kappa s2) <= k ->
  pos_dist s1 s2 + 2 * detour k s < DBL_MAX -> epsilon + 5 * (k / s + 1 / k) <= pos_dist s1 s2 ->
  (exists t L cs, cc_dubins_distance junk k s forward s1 s2 = Some (Some L) /\ cc_dubins_controls junk k s forward s1 s2 = Some cs /\
     wrap_not_below k s (dubins_pieces t) (dubins_gap k s t) s1 s2 cs L) /\
  (exists t L cs, hc_rs_distance junk k s s1 s2 = Some (Some L) /\ hc_rs_controls junk k s s1 s2 = Some cs /\
     wrap_not_below k s (rs_pieces t) (rs_gap k s t) s1 s2 cs L).
Proof. exact (wrapped_planners junk k s forward s1 s2). Qed.
Print Assumptions C57_any_curvature_partial.

Example C57_far_case : let s1 := mkState 0 0 0 (1 / 2) 1 in let s2 := mkState 60 80 0 (- (1 / 4)) 1 in
  Rabs (st_kappa s1) <= 1 /\ Rabs (st_kappa s2) <= 1 /\ pos_dist s1 s2 + 2 * detour 1 1 < DBL_MAX /\
  epsilon + 5 * (1 / 1 + 1 / 1) <= pos_dist s1 s2.
Proof. exact far_case. Qed.

(** The goal is at least 1.375 away and the distance is at most 1. *)
Theorem C57_cc0pm_dubins_refuted : exists s1 s2 L,
  ModelCC0pmD.get_distance 1 1 true s1 s2 = Some (Some L) /\ L <= 1 /\ 11 / 8 <= pos_dist s1 s2.
Proof. exact below_line. Qed.
Print Assumptions C57_cc0pm_dubins_refuted.

Theorem C57_hcpm0_reeds_shepp_refuted : exists s1 s2 L,
  ModelHCpm0R.get_distance 1 1 s1 s2 = Some (Some L) /\ L <= 1 /\ 11 / 8 <= pos_dist s1 s2.
Proof. exact below_line_hc. Qed.
Print Assumptions C57_hcpm0_reeds_shepp_refuted.

(** Predicted states of start and goal meet although start and goal are at least 0.2 apart; the distance is zero. *)
Theorem C57_any_curvature_refuted (junk : R) : exists s1 s2 L cs,
  Rabs (st_kappa s1) <= 1 /\ Rabs (st_kappa s2) <= 1 /\ hc_rs_distance junk 1 (1 / 4) s1 s2 = Some (Some L) /\ L <= 0 /\
  hc_rs_controls junk 1 (1 / 4) s1 s2 = Some cs /\ total_length cs <= 0 /\ 1 / 5 <= pos_dist s1 s2.
Proof. exact (zero_apart_position junk). Qed.
Print Assumptions C57_any_curvature_refuted.
