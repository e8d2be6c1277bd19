(** * Property C75: being allowed to reverse never makes a plan longer *)
From Coq Require Import Reals ZArith List.
From Verif Require Import Base ModelUtil ModelCircle ModelPaths ModelWrap SpecPath SpecPlan RevWrap PlanCases SideProofs WrapCases WrapPlan.
From Verif Require ModelCC00D ModelCC0pmD ModelCCpm0D ModelCCpmpmD ModelCC00R ModelHC00R ModelHC0pmR ModelHCpm0R ModelHCpmpmR.
Open Scope R_scope.

(** C75 between states of zero curvature. The straight line between the states is a bound of its own, because a
    goal straight behind the start is reached backwards. *)
Theorem C75_zero_curvature (k s : R) (forward : bool) (s1 s2 : State) :
  0 < k -> 0 < s -> pos_dist s1 s2 + detour k s < DBL_MAX ->
  exists LD LC LH, ModelCC00D.get_distance k s forward s1 s2 = Some (Some LD) /\
    ModelCC00R.get_distance k s s1 s2 = Some (Some LC) /\ ModelHC00R.get_distance k s s1 s2 = Some (Some LH) /\
    LC <= Rmax LD (pos_dist s1 s2) /\ LH <= Rmax LD (pos_dist s1 s2).
Proof. exact (fun Hk Hs => zero_rev k s Hk Hs forward s1 s2). Qed.
Print Assumptions C75_zero_curvature.

(** C75 where one end has zero curvature and the other the curvature bound *)
Theorem C75_zero_and_bound (k s : R) (forward : bool) (s1 s2 : State) :
  0 < k -> 0 < s -> pos_dist s1 s2 + detour k s < DBL_MAX ->
  (exists LD LH, ModelCC0pmD.get_distance k s forward s1 s2 = Some (Some LD) /\
     ModelHC0pmR.get_distance k s s1 s2 = Some (Some LH) /\ LH <= LD) /\
  (exists LD LH, ModelCCpm0D.get_distance k s forward s1 s2 = Some (Some LD) /\
     ModelHCpm0R.get_distance k s s1 s2 = Some (Some LH) /\ LH <= LD).
Proof. exact (fun Hk Hs => one_end_rev k s Hk Hs forward s1 s2). Qed.
Print Assumptions C75_zero_and_bound.

Example C75_near_case : 0 < 1 /\ 0 < 1 /\ pos_dist (mkState 0 0 0 0 1) (mkState 3 4 PI 1 1) + detour 1 1 < DBL_MAX.
Proof. exact (case_near _ _). Qed.

(** C75 where both ends have the curvature bound. The full statement is [LH <= LD] for all states; it is open where
    the Dubins planner returns four turns, a shape the other planner does not try. *)
Theorem C75_bound_to_bound_partial (k s : R) (forward : bool) (s1 s2 : State) :
  0 < k -> 0 < s -> pos_dist s1 s2 + detour k s < DBL_MAX ->
  exists p LD LH, ModelCCpmpmD.ccpmpm_dubins k s forward s1 s2 = Some p /\
    ModelCCpmpmD.get_distance k s forward s1 s2 = Some (Some LD) /\ ModelHCpmpmR.get_distance k s s1 s2 = Some (Some LH) /\
    (h_type p <> D_TTTT \/ 14 * (k / s + 1 / k) < pos_dist s1 s2 -> LH <= LD).
Proof. exact (fun Hk Hs => both_rev k s Hk Hs forward s1 s2). Qed.
Print Assumptions C75_bound_to_bound_partial.

Example C75_clear_case : let s1 := mkState 0 0 0 1 1 in let s2 := mkState 60 80 0 (-1) 1 in
  pos_dist s1 s2 + detour 1 1 < DBL_MAX /\ 14 * (1 / 1 + 1 / 1) < pos_dist s1 s2.
Proof. exact (conj (proj1 (proj2 (far_clear 1 (-1)))) (proj1 (rev_far_case 1 (-1)))). Qed.

(** C75 for states of any curvature that are not close to each other; the full statement is [LH <= LC] for all
    states. The second case is a start and a goal joined by a straight line between predicted states. *)
Theorem C75_any_curvature_partial (junk k s : R) (forward : bool) (s1 s2 : State) :
  0 < k -> 0 < s -> pos_dist s1 s2 + 2 * detour k s < DBL_MAX -> 30 * (k / s + 1 / k) <= pos_dist s1 s2 ->
  exists LC LH, cc_dubins_distance junk k s forward s1 s2 = Some (Some LC) /\ hc_rs_distance junk k s s1 s2 = Some (Some LH) /\
    (LH <= LC \/
     exists q1 c1 q2 c2, In (q1, c1) (cc_predict_state junk k s s1 forward) /\
       In (q2, c2) (cc_predict_state junk k s s2 (negb forward)) /\
       Rabs (st_kappa q1) < epsilon /\ Rabs (st_kappa q2) < epsilon /\
       LH <= Rabs (ct_delta_s c1) + pos_dist q1 q2 + Rabs (ct_delta_s c2)).
Proof. exact (fun Hk Hs => wrap_rev_far k s Hk Hs junk forward s1 s2). Qed.
Print Assumptions C75_any_curvature_partial.

Example C75_far_case : let s1 := mkState 0 0 0 (1 / 2) 1 in let s2 := mkState 60 80 0 (- (1 / 4)) 1 in
  pos_dist s1 s2 + 2 * detour 1 1 < DBL_MAX /\ 30 * (1 / 1 + 1 / 1) <= pos_dist s1 s2.
Proof. exact (conj (proj1 (proj2 (proj2 far_case))) (proj2 (rev_far_case _ _))). Qed.
